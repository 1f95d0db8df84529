(** C27, C29, C30: invariants, chaining of steps, lagged coefficients. *)

From Coq Require Import Reals List String Arith Bool Lia Lra FunctionalExtensionality.
From Verif Require Import RK_Model RK_Spec RK_Proofs RK_Proofs2 RK_Proofs3 RK_Proofs4
  TimeInt_Model TimeInt_Spec TimeInt_Proofs P_RungeKutta.
Import ListNotations.
Open Scope R_scope.

(** ** C27: linear invariants and steady states *)

(** Explicit integrators, both forms *)
Theorem C27_explicit_invariant {D Env : Type} (l : (D -> R) -> R) (T : tableau) alpha beta
    (F : Env -> (D -> R) -> D -> R) dt uf t (s : st) :
  linear l -> (forall e v, l (F e v) = 0) -> dt <> 0 ->
  l (sol (erk_advance T F true dt uf t s)) = l (if ini s then sol_old s else sol s) /\
  ((forall i, (i < ns T)%nat -> Sum (S i) (alpha (S i)) = 1) ->
   (forall i j, (i < ns T)%nat -> (j < i)%nat -> beta (S i) j = 0) ->
   l (sol (so_advance (ns T) alpha beta (tc T) F true dt uf t s)) = l (sol s)).
Proof.
  intros Hl HF Hdt. split.
  - destruct (C23_butcher_form_step T F dt uf t s Hdt) as [H _].
    apply (inv_explicit l Hl _ _ _ _ _ _ _ _ HF H).
  - intros Hr Hb. destruct (so_advance_spec (ns T) alpha beta (tc T) F dt uf t s Hb) as [H _].
    refine (inv_shuosher l Hl _ _ _ _ _ _ _ _ _ HF H). intros i Hi. rewrite <- Sum_rsum. apply Hr. exact Hi.
Qed.

(** Implicit integrators, tendency form *)
Theorem C27_implicit_invariant {D Env : Type} (l : (D -> R) -> R) (T : tableau)
    (G : Env -> (D -> R) -> (D -> R) -> D -> R) solve semi dt uf t (s : st) :
  linear l -> (forall e v w, l (G e v w) = 0) ->
  (0 < ns T)%nat -> exact_solver solve ->
  (forall i e (base w : D -> R), (i < ns T)%nat ->
     exists k, k = G e (fun x => base x + dt * ta T i i * k x) w) ->
  l (sol (dirk_advance T G solve semi dt uf t s)) = l (sol s).
Proof.
  intros Hl HG Hn Hs Hsol.
  destruct (C24_tendency_form_step T G solve semi dt uf t s Hn Hs Hsol) as [H _].
  apply (inv_linearised l Hl _ _ _ _ _ _ _ _ _ HG H).
Qed.

(** Implicit integrators, solution form: the invariant of the mass term *)
Theorem C27_solution_form_invariant {D Env : Type} (l : (D -> R) -> R) (T : tableau)
    (G : Env -> (D -> R) -> (D -> R) -> D -> R) solve (semi : bool) dt uf (mass : (D -> R) -> D -> R) t (s : st) :
  linear l -> (forall e v w, l (G e v w) = 0) ->
  (0 < ns T)%nat -> exact_solver solve -> dt <> 0 -> (forall i, (i < ns T)%nat -> ta T i i <> 0) ->
  (forall i (e : Env) (base u : D -> R), (i < ns T)%nat ->
     exists y : D -> R, forall x, mass y x = base x + dt * ta T i i * G e y (if semi then u else y) x) ->
  l (mass (sol (uform_advance T G solve semi dt uf mass t s))) = l (mass (sol s)).
Proof.
  intros Hl HG Hn Hs Hdt Hd Hsol.
  destruct (uform_advance_spec T G solve semi dt uf mass t Hs Hdt Hd Hsol s Hn) as ((y & k & Hk & Hu) & _).
  rewrite Hu. destruct (Hk (ns T - 1)%nat) as [Hy _]; [lia|]. rewrite Hy.
  apply (lin_along_zero l Hl). intros j Hj. destruct (Hk j) as [_ E]; [lia|]. rewrite E. apply HG.
Qed.

Theorem C27_imex_invariant {D Env : Type} (l : (D -> R) -> R) (TI TE : tableau)
    (GI : Env -> (D -> R) -> (D -> R) -> D -> R) (FE : Env -> (D -> R) -> D -> R) solve semi dt uf t (s : imst) :
  linear l -> (forall e v w, l (GI e v w) = 0) -> (forall e v, l (FE e v) = 0) ->
  exact_solver solve -> dt <> 0 -> ns TI = ns TE ->
  (forall i e (base w : D -> R), (i < ns TI)%nat ->
     exists k, k = GI e (fun x => base x + dt * ta TI i i * k x) w) ->
  sol (dk s) = sol (ek s) -> env (dk s) = env (ek s) ->
  l (sol (ek (imex_advance TI TE GI FE true solve semi dt uf t s))) = l (sol_old (ek s)).
Proof.
  intros Hl HI HE Hs Hdt Hns Hsol H1 H2.
  destruct (C26_imex_step TI TE GI FE solve semi dt uf t s Hs Hdt Hns Hsol H1 H2) as [H _].
  apply (inv_imex l Hl _ _ _ _ _ _ _ _ _ _ _ _ HI HE H).
Qed.

Lemma theta_step_invariant {D : Type} (l : (D -> R) -> R) mass Rn Ro dt theta (u u' : D -> R) :
  linear l -> (l (Rn u') = 0) -> (l (Ro u) = 0) -> theta_step mass Rn Ro dt theta u u' ->
  l (mass u') = l (mass u).
Proof.
  intros [La Ls] H1 H2 Hst.
  replace (mass u') with (fun x => mass u x + dt * (theta * Rn u' x + (1 - theta) * Ro u x)).
  - rewrite (La (mass u) (fun x => dt * (theta * Rn u' x + (1 - theta) * Ro u x))).
    rewrite (Ls dt (fun x => theta * Rn u' x + (1 - theta) * Ro u x)).
    rewrite (La (fun x => theta * Rn u' x) (fun x => (1 - theta) * Ro u x)).
    rewrite (Ls theta (Rn u')), (Ls (1 - theta) (Ro u)), H1, H2. ring.
  - fext x. rewrite <- (Hst x). ring.
Qed.

(** One step of Crank-Nicolson / forward Euler solves the theta scheme. *)
Section Theta.
Context {D Val B : Type}.
Variable keys : list string.
Variable kind : string -> ckind.
Variable Res : (D -> R) -> (D -> R) -> (string -> option Val) -> (string -> option Val) -> B -> D -> R.
Variable mass : (D -> R) -> D -> R.
Variable solve : ((D -> R) -> D -> R) -> (D -> R) -> D -> R.
Variable dt : R.
Variable uf : option (@forcing Val B).

Lemma cn_advance_spec theta (semi : bool) t (s : @tst D Val B) :
  exact_solver solve ->
  let c := force_co uf (t + dt) (tco s) in
  (exists u, theta_step mass
      (fun v => Res v (if semi then tsol s else v) (view kind c) (view kind c) (oth c))
      (fun v => Res v v (view_old kind c) (view_old kind c) (oth c)) dt theta (tsol s) u) ->
  let s' := cn_advance keys kind Res mass solve dt uf theta semi t s in
  theta_step mass
      (fun v => Res v (if semi then tsol s else v) (view kind c) (view kind c) (oth c))
      (fun v => Res v v (view_old kind c) (view_old kind c) (oth c)) dt theta (tsol s) (tsol s') /\
  tco s' = update_fields_old keys kind c.
Proof.
  intros Hs c [u Hu] s'. split; [|reflexivity].
  set (s1 := mk_tst (tsol s) (tsol s) c).
  assert (Hroot := Hs (cn_residual kind Res mass dt theta semi s1) (tsol s)).
  assert (Hex : exists k, forall x, cn_residual kind Res mass dt theta semi s1 k x = 0).
  { exists u. intros x. specialize (Hu x). unfold cn_residual, s1; cbn [tsol told tco]. lra. }
  specialize (Hroot Hex). intros x. specialize (Hroot x).
  change (tsol s') with (solve (cn_residual kind Res mass dt theta semi s1) (tsol s)).
  set (v := solve (cn_residual kind Res mass dt theta semi s1) (tsol s)) in *. clearbody v.
  unfold cn_residual, s1 in Hroot. cbn [tsol told tco] in Hroot. lra.
Qed.

Lemma fe_advance_spec t (s : @tst D Val B) :
  exact_solver solve ->
  let c := force_co uf (t + dt) (tco s) in
  (exists u, theta_step mass (fun v _ => 0)
      (fun v => Res v v (view_old kind c) (view_old kind c) (oth c)) dt 0 (tsol s) u) ->
  let s' := fe_advance keys kind Res mass solve dt uf t s in
  theta_step mass (fun v _ => 0)
      (fun v => Res v v (view_old kind c) (view_old kind c) (oth c)) dt 0 (tsol s) (tsol s') /\
  tco s' = update_fields_old keys kind c.
Proof.
  intros Hs c [u Hu] s'. split; [|reflexivity].
  set (s1 := mk_tst (tsol s) (tsol s) c).
  assert (Hroot := Hs (fe_residual kind Res mass dt s1) (tsol s)).
  assert (Hex : exists k, forall x, fe_residual kind Res mass dt s1 k x = 0).
  { exists u. intros x. specialize (Hu x). unfold fe_residual, s1; cbn [tsol told tco]. lra. }
  specialize (Hroot Hex). intros x. specialize (Hroot x).
  change (tsol s') with (solve (fe_residual kind Res mass dt s1) (tsol s)).
  set (v := solve (fe_residual kind Res mass dt s1) (tsol s)) in *. clearbody v.
  unfold fe_residual, s1 in Hroot. cbn [tsol told tco] in Hroot. lra.
Qed.

(** theta scheme and forward Euler: the invariant of the mass term *)
Theorem C27_theta_invariant (l : (D -> R) -> R) theta (semi : bool) t (s : @tst D Val B) :
  linear l -> (forall u w f fo b, l (Res u w f fo b) = 0) -> exact_solver solve ->
  (let c := force_co uf (t + dt) (tco s) in
   exists u, theta_step mass
      (fun v => Res v (if semi then tsol s else v) (view kind c) (view kind c) (oth c))
      (fun v => Res v v (view_old kind c) (view_old kind c) (oth c)) dt theta (tsol s) u) ->
  l (mass (tsol (cn_advance keys kind Res mass solve dt uf theta semi t s))) = l (mass (tsol s)).
Proof.
  intros Hl HR Hs Hex. destruct (cn_advance_spec theta semi t s Hs Hex) as [H _].
  refine (theta_step_invariant l _ _ _ _ _ _ _ Hl _ _ H); apply HR.
Qed.

Theorem C27_forward_euler_invariant (l : (D -> R) -> R) t (s : @tst D Val B) :
  linear l -> (forall u w f fo b, l (Res u w f fo b) = 0) -> exact_solver solve ->
  (let c := force_co uf (t + dt) (tco s) in
   exists u, theta_step mass (fun v _ => 0)
      (fun v => Res v v (view_old kind c) (view_old kind c) (oth c)) dt 0 (tsol s) u) ->
  l (mass (tsol (fe_advance keys kind Res mass solve dt uf t s))) = l (mass (tsol s)).
Proof.
  intros Hl HR Hs Hex. destruct (fe_advance_spec t s Hs Hex) as [H _].
  refine (theta_step_invariant l _ _ _ _ _ _ _ Hl _ _ H); [|apply HR]. apply (lin_zero l Hl).
Qed.

(** A state with zero residual is kept by the theta scheme when the equation
    of the step has one root only. *)
Theorem C27_theta_steady theta (semi : bool) t (s : @tst D Val B) :
  exact_solver solve ->
  let c := force_co uf (t + dt) (tco s) in
  let Rn := fun v => Res v (if semi then tsol s else v) (view kind c) (view kind c) (oth c) in
  let Ro := fun v => Res v v (view_old kind c) (view_old kind c) (oth c) in
  Rn (tsol s) = (fun _ => 0) -> Ro (tsol s) = (fun _ => 0) ->
  (forall u u', theta_step mass Rn Ro dt theta (tsol s) u -> theta_step mass Rn Ro dt theta (tsol s) u' -> u = u') ->
  tsol (cn_advance keys kind Res mass solve dt uf theta semi t s) = tsol s.
Proof.
  intros Hs c Rn Ro H1 H2 Hu.
  assert (Hst : theta_step mass Rn Ro dt theta (tsol s) (tsol s)).
  { intros x. rewrite H1, H2. ring. }
  apply Hu; [|exact Hst].
  apply (cn_advance_spec theta semi t s Hs). exists (tsol s). exact Hst.
Qed.
End Theta.

(** Moving-mesh integrators: the integral over the new mesh equals the one
    over the old mesh, whatever the mesh does in between. *)
Theorem C27_ale_invariant {D Geo Env : Type} (l : (D -> R) -> R) (massg : Geo -> (D -> R) -> D -> R)
    (Resg : Geo -> Env -> (D -> R) -> D -> R) msolve dt uf g1 g2 t (s : ast) :
  linear l -> (forall g e u, l (Resg g e u) = 0) ->
  (forall g b, massg g (msolve g b) = b) ->
  l (massg g2 (asol (ale_step massg Resg msolve dt uf g1 g2 t s))) = l (massg (ageo s) (asol s)) /\
  l (massg g1 (asol (lf_step massg Resg msolve dt uf g1 t s))) = l (massg (ageo s) (asol s)).
Proof.
  intros [La Ls] HR Hm.
  assert (Lk : forall g e u, l (fun x => dt * Resg g e u x) = 0)
    by (intros g e u; rewrite (Ls dt (Resg g e u)), HR; ring).
  split; unfold ale_step, lf_step; cbn -[Rplus Rmult Rdiv]; rewrite Hm.
  - match goal with |- l (fun x => 1/2 * (?m x + dt * ?r1 x) + 1/2 * ?m x + 1/2 * (dt * ?r2 x)) = _ =>
      set (R2 := r2); set (R1 := r1); set (M := m) end.
    replace (fun x => 1/2 * (M x + dt * R1 x) + 1/2 * M x + 1/2 * (dt * R2 x))
      with (fun x => M x + (1/2 * dt) * (R1 x + R2 x)) by (fext x; field).
    rewrite (La M (fun x => (1/2*dt) * (R1 x + R2 x))).
    rewrite (Ls (1/2*dt) (fun x => R1 x + R2 x)), (La R1 R2).
    unfold R1, R2. rewrite !HR. ring.
  - match goal with |- l (fun x => dt * ?r x + ?m x) = _ => rewrite (La (fun x => dt * r x) m) end.
    rewrite Lk. ring.
Qed.

(** Fixed mesh: a steady state stays. *)
Theorem C27_ale_steady {D Geo Env : Type} (massg : Geo -> (D -> R) -> D -> R)
    (Resg : Geo -> Env -> (D -> R) -> D -> R) msolve dt uf t (s : ast) :
  (forall g u, msolve g (massg g u) = u) ->
  (forall e, Resg (ageo s) e (asol s) = fun _ => 0) ->
  asol (ale_step massg Resg msolve dt uf (ageo s) (ageo s) t s) = asol s /\
  (aold s = asol s -> asol (lf_step massg Resg msolve dt uf (ageo s) t s) = asol s).
Proof.
  intros Hm HR. split; unfold ale_step, lf_step; cbn -[Rplus Rmult Rdiv].
  - assert (E1 : forall e, (fun x => massg (ageo s) (asol s) x + dt * Resg (ageo s) e (asol s) x) = massg (ageo s) (asol s))
      by (intros e; fext x; rewrite HR; ring).
    rewrite !E1, Hm.
    match goal with |- msolve _ ?f = _ => replace f with (massg (ageo s) (asol s)) end; [apply Hm|].
    fext x. rewrite !HR. field.
  - intros Ho. rewrite Ho.
    assert (E : forall e, (fun x => (1/2 - 2 * lf_gamma) * massg (ageo s) (asol s) x
        + (1/2 + 2 * lf_gamma) * massg (ageo s) (asol s) x
        + (1 - 2 * lf_gamma) * (dt * Resg (ageo s) e (asol s) x)) = massg (ageo s) (asol s))
      by (intros e; fext x; rewrite HR; field).
    rewrite E, Hm.
    replace (fun x => dt * Resg (ageo s) (force uf (t + dt) (aenv s)) (asol s) x + massg (ageo s) (asol s) x)
      with (massg (ageo s) (asol s)) by (fext x; rewrite HR; ring).
    apply Hm.
Qed.

(** Runge-Kutta: steady states *)
Theorem C27_explicit_steady {D Env : Type} (T : tableau) alpha beta
    (F : Env -> (D -> R) -> D -> R) dt uf t (s : st) : dt <> 0 ->
  ((forall e, F e (if ini s then sol_old s else sol s) = fun _ => 0) ->
   sol (erk_advance T F true dt uf t s) = (if ini s then sol_old s else sol s)) /\
  ((0 < ns T)%nat -> strictly_lower_triangular (ns T) (ta T) -> nonzero_subdiagonal (ns T) (ta T) (tb T) ->
   butcher_to_shuosher T = Some (alpha, beta) ->
   (forall al be, so_explicit T = Some (al, be) -> nothing_tiny (ns T) al /\ nothing_tiny (ns T) be) ->
   (forall e, F e (sol s) = fun _ => 0) ->
   sol (so_advance (ns T) alpha beta (tc T) F true dt uf t s) = sol s).
Proof.
  intros Hdt. split.
  - intros HF. destruct (C23_butcher_form_step T F dt uf t s Hdt) as [H _].
    apply (steady_explicit _ _ _ _ _ _ _ _ HF H).
  - intros Hn H1 H2 H3 H4 HF.
    destruct (C23_shuosher_form_step T alpha beta F dt uf t s Hn H1 H2 H3 H4) as [H _].
    apply (steady_explicit _ _ _ _ _ _ _ _ HF H).
Qed.

Theorem C27_implicit_steady {D Env : Type} (T : tableau)
    (G : Env -> (D -> R) -> (D -> R) -> D -> R) solve semi dt uf t (s : st) :
  (0 < ns T)%nat -> exact_solver solve ->
  (forall i e (base w : D -> R), (i < ns T)%nat ->
     exists k, k = G e (fun x => base x + dt * ta T i i * k x) w) ->
  (forall e, G e (sol s) (sol s) = fun _ => 0) ->
  (forall i e k, (i < ns T)%nat -> k = G e (fun x => sol s x + dt * ta T i i * k x) (sol s) -> k = fun _ => 0) ->
  sol (dirk_advance T G solve semi dt uf t s) = sol s.
Proof.
  intros Hn Hs Hsol HG Hu.
  destruct (C24_tendency_form_step T G solve semi dt uf t s Hn Hs Hsol) as [H _].
  refine (steady_linearised _ _ _ _ _ _ _ _ _ _ HG Hu H).
  intros i k Hk. destruct semi; [reflexivity|]. destruct i as [|i]; [reflexivity|].
  cbn [previous_stage]. apply along_zero. exact Hk.
Qed.

(** Any number of steps, mixed with changes that respect the invariant *)
Theorem C27_history_invariant {V E : Type} (step : R -> V * E -> V * E -> Prop) (J : V -> R) ops x y :
  (forall t x y, step t x y -> J (fst y) = J (fst x)) ->
  Forall (fun o => match o with Advance _ => True | Change g => forall v, J (g v) = J v end) ops ->
  history step ops x y -> J (fst y) = J (fst x).
Proof.
  intros Hst Hc H. induction H as [x|t ops x y z H1 H2 IH|g ops v e z H IH].
  - reflexivity.
  - inversion Hc; subst. rewrite IH by assumption. apply (Hst t). exact H1.
  - inversion Hc; subst. rewrite IH by assumption. cbn [fst]. auto.
Qed.

(** Refuted with wetting and drying, tendency form: with the moving
    bathymetry the conserved quantity is M(u) = u + displacement, but the
    tendency form of the implicit integrators advances u itself.  Two cells,
    alpha = 4, depths (3, -3), an exchange of 3 between them: the volume drops
    from 5 to 4. *)
Definition wd_mass (u : bool -> R) (x : bool) : R := (u x + sqrt (u x * u x + 16)) / 2.
Definition volume (u : bool -> R) : R := u true + u false.

Lemma sqrt25 : sqrt 25 = 5. Proof. replace 25 with (5 * 5) by lra. apply sqrt_square. lra. Qed.
Lemma sqrt16 : sqrt 16 = 4. Proof. replace 16 with (4 * 4) by lra. apply sqrt_square. lra. Qed.

Theorem C27_tendency_form_displaced_mass_refuted :
  exists (G : unit -> (bool -> R) -> (bool -> R) -> bool -> R) (s : st),
    linear volume /\ (forall e v w, volume (G e v w) = 0) /\
    (forall i e (base w : bool -> R), (i < 1)%nat ->
       exists k, k = G e (fun x => base x + 1 * ta BackwardEulerTab i i * k x) w) /\
    forall solve, exact_solver solve ->
      volume (wd_mass (sol s)) = 5 /\
      volume (wd_mass (sol (dirk_advance BackwardEulerTab G solve false 1 None 0 s))) = 4.
Proof.
  set (G := fun (_ : unit) (_ _ : bool -> R) (x : bool) => if x then -3 else 3).
  exists G, (mk_st (fun x => if x : bool then 3 else -3) (fun _ => 0) (fun _ _ => 0) (fun _ _ => 0) false tt).
  split; [split; intros; unfold volume; ring|].
  split; [intros; unfold volume, G; ring|].
  assert (Hsol : forall i e (base w : bool -> R), (i < 1)%nat ->
       exists k, k = G e (fun x => base x + 1 * ta BackwardEulerTab i i * k x) w).
  { intros i e base w Hi. exists (fun x => if x : bool then -3 else 3). reflexivity. }
  split; [exact Hsol|]. intros solve Hs. split.
  - unfold volume, wd_mass. cbn [sol]. replace (3 * 3 + 16) with 25 by lra. replace (-3 * -3 + 16) with 25 by lra.
    rewrite sqrt25. lra.
  - destruct (C24_tendency_form_step BackwardEulerTab G solve false 1 None 0
      (mk_st (fun x => if x : bool then 3 else -3) (fun _ => 0) (fun _ _ => 0) (fun _ _ => 0) false tt)) as [(k & Hk & Hu) _].
    + cbn; lia.
    + exact Hs.
    + exact Hsol.
    + rewrite Hu. specialize (Hk O ltac:(cbn; lia)). unfold volume, wd_mass, along, Sum. cbn.
      rewrite Hk. unfold G.
      replace (3 + 1 * (1 * -3 + 0)) with 0 by lra. replace (-3 + 1 * (1 * 3 + 0)) with 0 by lra.
      replace (0 * 0 + 16) with 16 by lra. rewrite sqrt16. lra.
Qed.

(** Refuted for the pressure-projection integrator with wetting and drying:
    the old mass term (timeintegrator.py:405) lacks the displacement, so even
    without any flow the elevation falls from 4 to 3. *)
Theorem C27_picard_displaced_mass_refuted :
  let mass := fun (u : unit -> R) (x : unit) => (u x + sqrt (u x * u x + 16)) / 2 in
  let zero := fun (_ _ : unit -> R) (_ _ : string -> option unit) (_ : unit) (_ : unit) => 0 in
  forall solve, exact_solver solve ->
  forall (s : @pst unit unit unit unit), psol unit s = (fun _ => 4) ->
  psol unit (pp_advance [] (fun _ => KNone) mass solve 1 None (1/2) false unit
         (fun _ _ _ u => u) (fun _ u => u) (fun _ old => old) zero (fun _ _ _ _ _ => 0) 1 0 s) tt = 3.
Proof.
  intros mass zero solve Hs s H4.
  unfold pp_advance. cbn [for_range]. unfold pp_iterate. cbn [Nat.ltb Nat.leb psol pold plag pstar pco force_co].
  match goal with |- solve ?r ?g tt = 3 => assert (Hr := Hs r g); set (v := solve r g) in *; set (rr := r) in * end.
  assert (Hex : exists k, forall x, rr k x = 0).
  { exists (fun _ => 3). intros x. unfold rr, pp_residual, mass, zero. cbn [pold pstar plag pco]. rewrite H4.
    replace (3 * 3 + 16) with 25 by lra. rewrite sqrt25. lra. }
  specialize (Hr Hex tt). unfold rr, pp_residual, mass, zero in Hr. cbn [pold pstar plag pco] in Hr. rewrite H4 in Hr.
  assert (Q : sqrt (v tt * v tt + 16) = 8 - v tt) by lra.
  assert (P : 0 <= v tt * v tt + 16) by nra.
  assert (Q2 := sqrt_sqrt _ P). rewrite Q in Q2. nra.
Qed.

(** hypotheses: total over two cells exchanging mass at rate proportional to
    their difference *)
Example C27_hypotheses :
  linear volume /\
  (forall e v w, volume ((fun (_ : unit) (u _ : bool -> R) (x : bool) => u (negb x) - u x) e v w) = 0) /\
  (forall i (e : unit) (base w : bool -> R), (i < 2)%nat ->
     exists k, k = (fun (_ : unit) (u _ : bool -> R) (x : bool) => u (negb x) - u x) e
                     (fun x => base x + 1 * ta CrankNicolsonTab i i * k x) w).
Proof.
  split; [split; intros; unfold volume; ring|].
  split; [intros; unfold volume; cbn; ring|].
  intros i e base w Hi. assert (C : i = O \/ i = 1%nat) by lia. destruct C as [->| ->].
  - exists (fun x => base (negb x) - base x). fext x. cbn. ring.
  - exists (fun x => (base (negb x) - base x) / 2). fext x. cbn. rewrite Bool.negb_involutive. field.
Qed.

(** ** C29: chaining, external changes included *)

Definition run {D S : Type} (adv : R -> S -> S) (chg : ((D -> R) -> D -> R) -> S -> S)
    (ops : list (op (D -> R))) (s : S) : S :=
  fold_left (fun s o => match o with Advance t => adv t s | Change g => chg g s end) ops s.

(** the rest of the program assigns to the solution Function *)
Definition change {D Env : Type} (g : (D -> R) -> D -> R) (s : @st D Env) : st := set_sol (g (sol s)) s.

Theorem C29_shuosher_chain {D Env : Type} (T : tableau) alpha beta (F : Env -> (D -> R) -> D -> R) dt uf ops (s : st) :
  (0 < ns T)%nat ->
  strictly_lower_triangular (ns T) (ta T) -> nonzero_subdiagonal (ns T) (ta T) (tb T) ->
  butcher_to_shuosher T = Some (alpha, beta) ->
  (forall al be, so_explicit T = Some (al, be) -> nothing_tiny (ns T) al /\ nothing_tiny (ns T) be) ->
  let s' := run (so_advance (ns T) alpha beta (tc T) F true dt uf) change ops s in
  history (explicit_map (ns T) (ta T) (tb T) (tc T) F dt uf) ops (sol s, env s) (sol s', env s').
Proof.
  intros Hn H1 H2 H3 H4.
  apply (history_run (explicit_map (ns T) (ta T) (tb T) (tc T) F dt uf) (fun s : st => (sol s, env s))).
  - intros t s0. apply (C23_shuosher_form_step T alpha beta F dt uf t s0); assumption.
  - reflexivity.
Qed.

Theorem C29_implicit_chain {D Env : Type} (T : tableau) (F : Env -> (D -> R) -> D -> R) solve semi dt uf ops (s : st) :
  (0 < ns T)%nat -> exact_solver solve ->
  (forall i e (base : D -> R), (i < ns T)%nat ->
     exists k, k = F e (fun x => base x + dt * ta T i i * k x)) ->
  let s' := run (dirk_advance T (fun e u _ => F e u) solve semi dt uf) change ops s in
  history (implicit_map (ns T) (ta T) (tb T) (tc T) F dt uf) ops (sol s, env s) (sol s', env s').
Proof.
  intros Hn Hs Hsol.
  apply (history_run (implicit_map (ns T) (ta T) (tb T) (tc T) F dt uf) (fun s : st => (sol s, env s))).
  - intros t s0. split.
    + apply (C24_tendency_form_implicit T F solve semi dt uf t s0 Hn Hs Hsol).
    + refine (proj2 (C24_tendency_form_step T (fun e u _ => F e u) solve semi dt uf t s0 Hn Hs _)).
      intros i e base w Hi. apply Hsol. exact Hi.
  - reflexivity.
Qed.

Theorem C29_solution_form_chain {D Env : Type} (T : tableau) (G : Env -> (D -> R) -> (D -> R) -> D -> R)
    solve dt uf ops (s : st) :
  (0 < ns T)%nat -> exact_solver solve -> dt <> 0 ->
  (forall i, (i < ns T)%nat -> ta T i i <> 0) -> stiffly_accurate (ns T) (ta T) (tb T) ->
  (forall i (e : Env) (base : D -> R), (i < ns T)%nat ->
     exists y : D -> R, forall x, y x = base x + dt * ta T i i * G e y y x) ->
  let s' := run (uform_advance T G solve false dt uf (fun u : D -> R => u)) change ops s in
  history (implicit_map (ns T) (ta T) (tb T) (tc T) (fun e u => G e u u) dt uf) ops (sol s, env s) (sol s', env s').
Proof.
  intros Hn Hs Hdt Hd Hst Hsol.
  apply (history_run (implicit_map (ns T) (ta T) (tb T) (tc T) (fun e u => G e u u) dt uf) (fun s : st => (sol s, env s))).
  - intros t s0.
    destruct (C24_solution_form_step T G solve false dt uf t s0 Hn Hs Hdt Hd Hst) as (A & _ & C).
    { intros i e base u Hi. apply Hsol. exact Hi. }
    split; [apply A; reflexivity|exact C].
  - reflexivity.
Qed.

(** Crank-Nicolson: each step starts from what is in the solution field. *)
Theorem C29_theta_chain {D Val B : Type} keys kind Res (mass : (D -> R) -> D -> R) solve dt
    (uf : option (@forcing Val B)) theta (semi : bool) ops (s : @tst D Val B) :
  exact_solver solve ->
  let Rn := fun c (u v : D -> R) => Res v (if semi then u else v) (view kind c) (view kind c) (oth c) in
  let Ro := fun c (v : D -> R) => Res v v (view_old kind c) (view_old kind c) (oth c) in
  (forall c u, exists v, theta_step mass (Rn c u) (Ro c) dt theta u v) ->
  let s' := run (cn_advance keys kind Res mass solve dt uf theta semi)
                (fun g s => mk_tst (g (tsol s)) (told s) (tco s)) ops s in
  history (fun t x y =>
      let c := force_co uf (t + dt) (snd x) in
      theta_step mass (Rn c (fst x)) (Ro c) dt theta (fst x) (fst y) /\
      snd y = update_fields_old keys kind c)
    ops (tsol s, tco s) (tsol s', tco s').
Proof.
  intros Hs Rn Ro Hex.
  apply (history_run _ (fun s : tst => (tsol s, tco s))).
  - intros t s0. cbn [fst snd]. apply (cn_advance_spec keys kind Res mass solve dt uf theta semi t s0 Hs).
    apply Hex.
  - reflexivity.
Qed.

(** Butcher-form explicit integrators chain as long as nobody else changes
    the solution field ... *)
Theorem C29_butcher_chain_without_changes {D Env : Type} (T : tableau) (F : Env -> (D -> R) -> D -> R) dt uf times (s : st) :
  dt <> 0 -> ini s = false ->
  let s' := run (erk_advance T F true dt uf) change (map Advance times) s in
  history (explicit_map (ns T) (ta T) (tb T) (tc T) F dt uf) (map Advance times) (sol s, env s) (sol s', env s').
Proof.
  intros Hdt Hi.
  set (start := fun s : @st D Env => if ini s then sol_old s else sol s).
  assert (K : forall ops s, start s = sol s -> Forall (fun o => match o with Advance _ => True | _ => False end) ops ->
     history (explicit_map (ns T) (ta T) (tb T) (tc T) F dt uf) ops (sol s, env s)
       (sol (run (erk_advance T F true dt uf) change ops s), env (run (erk_advance T F true dt uf) change ops s))).
  { induction ops as [|o ops IH]; intros s0 H0 Hf; [constructor|]. inversion Hf; subst. destruct o as [t|g]; [|contradiction].
    destruct (erk_advance_spec T F dt uf t s0 Hdt) as (A & B & C & I).
    apply history_advance with (sol (erk_advance T F true dt uf t s0), env (erk_advance T F true dt uf t s0)).
    - split; cbn [fst snd]; [|exact B]. unfold erk_start in A. unfold start in H0. rewrite H0 in A. exact A.
    - change (run (erk_advance T F true dt uf) change (Advance t :: ops) s0)
        with (run (erk_advance T F true dt uf) change ops (erk_advance T F true dt uf t s0)).
      apply IH; [|assumption]. unfold start. rewrite I. exact C. }
  apply K; [unfold start; rewrite Hi; reflexivity|].
  apply Forall_forall. intros o Ho. apply in_map_iff in Ho. destruct Ho as (t & <- & _). exact I.
Qed.

(** ... or re-initialises the integrator after each change. *)
Theorem C29_butcher_chain_reinitialized {D Env : Type} (T : tableau) (F : Env -> (D -> R) -> D -> R) dt uf ops (s : st) :
  dt <> 0 -> ini s = false ->
  let s' := run (erk_advance T F true dt uf)
                (fun g s => let s := change g s in erk_initialize (sol s) s) ops s in
  history (explicit_map (ns T) (ta T) (tb T) (tc T) F dt uf) ops (sol s, env s) (sol s', env s').
Proof.
  intros Hdt Hi.
  set (start := fun s : @st D Env => if ini s then sol_old s else sol s).
  set (adv := erk_advance T F true dt uf). set (chg := fun g (s : @st D Env) => let s := change g s in erk_initialize (sol s) s).
  assert (K : forall ops s, start s = sol s ->
     history (explicit_map (ns T) (ta T) (tb T) (tc T) F dt uf) ops (sol s, env s)
       (sol (run adv chg ops s), env (run adv chg ops s))).
  { induction ops0 as [|o ops0 IH]; intros s0 H0; [constructor|]. destruct o as [t|g].
    - destruct (erk_advance_spec T F dt uf t s0 Hdt) as (A & B & C & I).
      apply history_advance with (sol (adv t s0), env (adv t s0)).
      + split; cbn [fst snd]; [|exact B]. unfold erk_start in A. unfold start in H0. rewrite H0 in A. exact A.
      + apply (IH (adv t s0)). unfold start, adv. rewrite I. exact C.
    - apply history_change. apply (IH (chg g s0)). reflexivity. }
  apply K. unfold start; rewrite Hi; reflexivity.
Qed.

(** Refuted with changes in between: the change is thrown away.  u' = 0, one
    step, add 1, one step: back to the value before the change. *)
Theorem C29_butcher_chain_refuted :
  exists (ops : list (op (unit -> R))) (s : @st unit unit), ini s = false /\
    let s' := run (erk_advance ForwardEulerTab (fun _ _ _ => 0) true 1 None) change ops s in
    ~ history (explicit_map 1 (ta ForwardEulerTab) (tb ForwardEulerTab) (tc ForwardEulerTab) (fun _ _ _ => 0) 1 None)
        ops (sol s, env s) (sol s', env s').
Proof.
  exists [Advance 0; Change (fun u x => u x + 1); Advance 1],
    (mk_st (fun _ => 0) (fun _ => 0) (fun _ _ => 0) (fun _ _ => 0) false tt).
  split; [reflexivity|]. intros s' H.
  assert (V : sol s' tt = 0) by (cbn; unfold vadd, vlin, vscale; cbn; lra).
  inversion H as [|t ops x y z H1 H2|]; subst. clear H.
  destruct y as [v e]. inversion H2 as [| |g ops v' e' z H3]; subst. clear H2.
  inversion H3 as [|t ops x y z H4 H5|]; subst. clear H3.
  inversion H5; subst. clear H5.
  destruct H1 as [S1 _]. destruct H4 as [S2 _]. cbn [fst snd] in S1, S2.
  apply steady_explicit in S1; [|reflexivity]. apply steady_explicit in S2; [|reflexivity].
  assert (X := f_equal (fun f => f tt) S2). cbv beta in X. rewrite S1 in X. cbn [sol] in X.
  rewrite V in X. lra.
Qed.

(** The implicit-explicit integrator behaves in the same way: chaining without changes, *)
Theorem C29_imex_chain_without_changes {D Env : Type} (TI TE : tableau)
    (GI : Env -> (D -> R) -> (D -> R) -> D -> R) (FE : Env -> (D -> R) -> D -> R) solve semi dt uf times
    (v : D -> R) (s0 : imst) :
  exact_solver solve -> dt <> 0 -> ns TI = ns TE ->
  (forall i e (base w : D -> R), (i < ns TI)%nat ->
     exists k, k = GI e (fun x => base x + dt * ta TI i i * k x) w) ->
  sol (dk s0) = sol (ek s0) -> env (dk s0) = env (ek s0) -> v = sol (ek s0) ->
  let s := imex_initialize v s0 in
  let s' := fold_left (fun s t => imex_advance TI TE GI FE true solve semi dt uf t s) times s in
  history (imex_map (ns TE) (ta TI) (tb TI) (tc TI) (ta TE) (tb TE) (tc TE) GI FE dt uf)
    (map Advance times) (v, env (ek s0)) (sol (ek s'), env (ek s')).
Proof.
  intros Hs Hdt Hns Hsol H1 H2 Hv.
  assert (K : forall times (s : imst), shared s -> sol_old (ek s) = sol (ek s) ->
     history (imex_map (ns TE) (ta TI) (tb TI) (tc TI) (ta TE) (tb TE) (tc TE) GI FE dt uf)
       (map Advance times) (sol (ek s), env (ek s))
       (let s' := fold_left (fun s t => imex_advance TI TE GI FE true solve semi dt uf t s) times s in (sol (ek s'), env (ek s')))).
  { induction times0 as [|t times0 IH]; intros s Hsh Ho; [constructor|].
    destruct (imex_advance_spec TI TE GI FE solve semi dt uf t Hs Hsol Hns Hdt s Hsh) as (A & B & C & E & _).
    cbn [map fold_left]. eapply history_advance; [|apply IH; [exact E|exact C]].
    split; cbn [fst snd]; [|exact B]. rewrite <- Ho. exact A. }
  intros s s'. assert (Hsh : shared s) by (split; reflexivity).
  specialize (K times s Hsh). change (sol (ek s)) with (sol (dk s0)) in K. change (env (ek s)) with (env (dk s0)) in K.
  rewrite H1, H2, <- Hv in K. apply K. reflexivity.
Qed.

(** and without [initialize] the first step starts from zero, not from the
    solution field (the [error] call in [advance] only logs). *)
Theorem C29_imex_uninitialized_refuted :
  exists s : @imst unit unit,
    sol (ek s) = (fun _ => 1) /\ sol (dk s) = (fun _ => 1) /\
    forall solve, exact_solver solve ->
    sol (ek (imex_advance BackwardEulerTab ForwardEulerTab (fun _ _ _ _ => 0) (fun _ _ _ => 0) true solve false 1 None 0 s)) tt = 0.
Proof.
  set (z := mk_st (fun _ : unit => 1) (fun _ => 0) (fun _ _ => 0) (fun _ _ => 0) false tt).
  exists (mk_im z z). split; [reflexivity|]. split; [reflexivity|]. intros solve Hs.
  destruct (C26_imex_step BackwardEulerTab ForwardEulerTab (fun _ _ _ _ => 0) (fun _ _ _ => 0) solve false 1 None 0 (mk_im z z)) as [H _];
    try assumption; try reflexivity; try lra.
  - intros. exists (fun _ => 0). reflexivity.
  - destruct H as (kI & kE & Hk & Hu).
    assert (Hu' := f_equal (fun f => f tt) Hu). cbv beta in Hu'. rewrite Hu'.
    destruct (Hk O) as [E1 E2]; [cbn; lia|]. unfold along, Sum. cbn. rewrite E1, E2. lra.
Qed.

(** ** C30: lagged coefficients *)
Section Lagged.
Context {D Val B : Type}.
Variable keys : list string.
Variable kind : string -> ckind.
Variable zeroval : Val.
Variable Res : (D -> R) -> (D -> R) -> (string -> option Val) -> (string -> option Val) -> B -> D -> R.
Variable mass : (D -> R) -> D -> R.
Variable solve : ((D -> R) -> D -> R) -> (D -> R) -> D -> R.
Variable dt theta : R.
Variable semi : bool.
Variable uf : option (@forcing Val B).

(** the user's callback, as a function on the current coefficients *)
Definition callback (t : R) (c : (string -> Val) * B) : (string -> Val) * B :=
  match uf with Some f => f (t + dt) c | None => c end.

Definition set_cur (f : (string -> Val) * B -> (string -> Val) * B) (s : @tst D Val B) : tst :=
  let (v, b) := f (val (tco s), oth (tco s)) in mk_tst (tsol s) (told s) (mk_coefs v (oldv (tco s)) b).

Definition run_cn (ops : list (fop ((string -> Val) * B))) (s : tst) : tst :=
  fold_left (fun s o => match o with
    | Assign f => set_cur f s
    | Step t => cn_advance keys kind Res mass solve dt uf theta semi t s end) ops s.
Definition run_fe (ops : list (fop ((string -> Val) * B))) (s : tst) : tst :=
  fold_left (fun s o => match o with
    | Assign f => set_cur f s
    | Step t => fe_advance keys kind Res mass solve dt uf t s end) ops s.

(** the lagged dictionary a step should see: values at the end of the previous
    step for Functions, current values for Constants *)
Definition lagged (last cur : (string -> Val) * B) (k : string) : option Val :=
  match kind k with
  | KFunction => if in_dec string_dec k keys then Some (fst last k) else Some zeroval
  | KConstant => Some (fst cur k)
  | _ => None
  end.

Lemma force_callback t c : val (force_co uf (t + dt) c) = fst (callback t (val c, oth c)) /\
  oth (force_co uf (t + dt) c) = snd (callback t (val c, oth c)) /\ oldv (force_co uf (t + dt) c) = oldv c.
Proof.
  unfold force_co, callback. destruct uf as [f|]; [|auto]. destruct (f (t + dt) (val c, oth c)); auto.
Qed.

Definition tracked (s : @tst D Val B) (p : ((string -> Val) * B) * ((string -> Val) * B)) : Prop :=
  (val (tco s), oth (tco s)) = fst p /\
  forall k, kind k = KFunction ->
    oldv (tco s) k = if in_dec string_dec k keys then fst (snd p) k else zeroval.

Lemma tracked_step (s s' : @tst D Val B) cur last t :
  tracked s (cur, last) -> tco s' = update_fields_old keys kind (force_co uf (t + dt) (tco s)) ->
  tracked s' (callback t cur, callback t cur).
Proof.
  intros [E Ho] Hs. cbn [fst snd] in E, Ho. destruct (force_callback t (tco s)) as (F1 & F2 & F3). rewrite E in F1, F2.
  split; cbn [fst snd].
  - rewrite Hs. rewrite val_update, oth_update, F1, F2. destruct (callback t cur); reflexivity.
  - intros k Hk. rewrite Hs, update_fields_old_spec, Hk, F1, F3, (Ho k Hk).
    destruct (in_dec string_dec k keys); reflexivity.
Qed.

Lemma tracked_assign (s : @tst D Val B) cur last f : tracked s (cur, last) -> tracked (set_cur f s) (f cur, last).
Proof.
  intros [E Ho]. cbn [fst snd] in E, Ho. unfold set_cur. rewrite E. destruct (f cur) as [v b].
  split; [reflexivity|exact Ho].
Qed.

Lemma tracked_cn ops : forall s p, tracked s p ->
  tracked (run_cn ops s) (fold_left (fun '(cur, last) o =>
    match o with Assign f => (f cur, last) | Step t => let c := callback t cur in (c, c) end) ops p).
Proof.
  induction ops as [|o ops IH]; intros s [cur last] H; [exact H|]. cbn [run_cn fold_left]. destruct o as [f|t].
  - apply IH. apply tracked_assign. exact H.
  - apply IH. apply (tracked_step s _ cur last t H). reflexivity.
Qed.
Lemma tracked_fe ops : forall s p, tracked s p ->
  tracked (run_fe ops s) (fold_left (fun '(cur, last) o =>
    match o with Assign f => (f cur, last) | Step t => let c := callback t cur in (c, c) end) ops p).
Proof.
  induction ops as [|o ops IH]; intros s [cur last] H; [exact H|]. cbn [run_fe fold_left]. destruct o as [f|t].
  - apply IH. apply tracked_assign. exact H.
  - apply IH. apply (tracked_step s _ cur last t H). reflexivity.
Qed.

Lemma tracked_init v b u w u0 :
  tracked (ti_initialize keys kind u0 (mk_tst u w (create_fields_old zeroval v b))) ((v, b), (v, b)).
Proof.
  split; [reflexivity|]. intros k Hk. cbn [ti_initialize tco]. rewrite update_fields_old_spec, Hk. reflexivity.
Qed.

Lemma tracked_view_old s cur last t : tracked s (cur, last) ->
  let c := force_co uf (t + dt) (tco s) in
  view_old kind c = lagged last (callback t cur) /\
  view kind c = (fun k => match kind k with KNone => None | _ => Some (fst (callback t cur) k) end) /\
  oth c = snd (callback t cur).
Proof.
  intros [E Ho] c. cbn [fst snd] in E, Ho. destruct (force_callback t (tco s)) as (F1 & F2 & F3). rewrite E in F1, F2.
  fold c in F1, F2, F3. split; [|split; [|exact F2]].
  - extensionality k. unfold view_old, lagged. destruct (kind k) eqn:Ek; try reflexivity.
    + rewrite F3, (Ho k Ek). destruct (in_dec string_dec k keys); reflexivity.
    + rewrite F1. reflexivity.
  - extensionality k. unfold view. rewrite F1. reflexivity.
Qed.

(** After any history of coefficient assignments and steps, the next
    Crank-Nicolson step solves the theta scheme whose old time level uses the
    values Functions had at the end of the previous step and the current
    values of Constants, and whose new time level uses the current values. *)
Theorem C30_crank_nicolson_lagged_values ops v b u w u0 t :
  exact_solver solve ->
  let s := run_cn ops (ti_initialize keys kind u0 (mk_tst u w (create_fields_old zeroval v b))) in
  let '(cur, last) := track callback ops (v, b) in
  let now := callback t cur in
  let new_fields := fun k => match kind k with KNone => None | _ => Some (fst now k) end in
  let old_fields := lagged last now in
  let Rn := fun x => Res x (if semi then tsol s else x) new_fields new_fields (snd now) in
  let Ro := fun x => Res x x old_fields old_fields (snd now) in
  (exists y, theta_step mass Rn Ro dt theta (tsol s) y) ->
  theta_step mass Rn Ro dt theta (tsol s)
    (tsol (cn_advance keys kind Res mass solve dt uf theta semi t s)).
Proof.
  intros Hs s. assert (H := tracked_cn ops _ _ (tracked_init v b u w u0)). fold s in H.
  unfold track. destruct (fold_left _ ops ((v, b), (v, b))) as [cur last].
  intros Hex.
  destruct (tracked_view_old s cur last t H) as (V1 & V2 & V3).
  assert (A := cn_advance_spec keys kind Res mass solve dt uf theta semi t s Hs).
  cbn zeta in A. rewrite V1, V2, V3 in A. apply A. exact Hex.
Qed.

Theorem C30_forward_euler_lagged_values ops v b u w u0 t :
  exact_solver solve ->
  let s := run_fe ops (ti_initialize keys kind u0 (mk_tst u w (create_fields_old zeroval v b))) in
  let '(cur, last) := track callback ops (v, b) in
  let now := callback t cur in
  let old_fields := lagged last now in
  let Ro := fun x => Res x x old_fields old_fields (snd now) in
  (exists y, theta_step mass (fun _ _ => 0) Ro dt 0 (tsol s) y) ->
  theta_step mass (fun _ _ => 0) Ro dt 0 (tsol s)
    (tsol (fe_advance keys kind Res mass solve dt uf t s)).
Proof.
  intros Hs s. assert (H := tracked_fe ops _ _ (tracked_init v b u w u0)). fold s in H.
  unfold track. destruct (fold_left _ ops ((v, b), (v, b))) as [cur last].
  intros Hex.
  destruct (tracked_view_old s cur last t H) as (V1 & V2 & V3).
  assert (A := fe_advance_spec keys kind Res mass solve dt uf t s Hs).
  cbn zeta in A. rewrite V1, V3 in A. apply A. exact Hex.
Qed.
End Lagged.

(** Refuted for coefficients given as UFL expressions (accepted by the
    options, e.g. for the Coriolis parameter): they have no lagged entry, so
    their old-level part is dropped.  Source term of 1, dt = 1, from 0:
    Crank-Nicolson gives 1/2 and forward Euler gives 0 instead of 1. *)
Definition src_res (u w : unit -> R) (f fo : string -> option R) (b : unit) (x : unit) : R :=
  match f "source"%string with Some v => v | None => 0 end.

Theorem C30_expression_coefficient_dropped_refuted :
  forall solve, exact_solver solve ->
  let s := ti_initialize ["source"%string] (fun _ => KExpr) (fun _ => 0)
             (mk_tst (fun _ : unit => 0) (fun _ => 0) (create_fields_old 0 (fun _ => 1) tt)) in
  view (fun _ => KExpr) (tco s) "source"%string = Some 1 /\
  tsol (cn_advance ["source"%string] (fun _ => KExpr) src_res (fun u => u) solve 1 None (1/2) false 0 s) tt = 1/2 /\
  tsol (fe_advance ["source"%string] (fun _ => KExpr) src_res (fun u => u) solve 1 None 0 s) tt = 0.
Proof.
  intros solve Hs s. split; [reflexivity|]. split.
  - destruct (cn_advance_spec ["source"%string] (fun _ => KExpr) src_res (fun u => u) solve 1 None (1/2) false 0 s Hs) as [H _].
    + exists (fun _ => 1/2). intros x. cbn. lra.
    + specialize (H tt). cbn in H. cbn. lra.
  - destruct (fe_advance_spec ["source"%string] (fun _ => KExpr) src_res (fun u => u) solve 1 None 0 s Hs) as [H _].
    + exists (fun _ => 0). intros x. cbn. lra.
    + specialize (H tt). cbn in H. cbn. lra.
Qed.

(** hypotheses: a Function-valued source set to 1, stepped, then set to 3:
    the second step sees 1 at the old level *)
Example C30_example :
  track (callback 1 None) [Step 0; Assign (fun c => (fun _ => 3, snd c))] ((fun _ : string => 1), tt)
  = ((fun _ => 3, tt), (fun _ => 1, tt)).
Proof. reflexivity. Qed.
Example C30_hypotheses (last now : (string -> R) * unit) :
  exists y, theta_step (fun u : unit -> R => u)
    (fun x => src_res x x (fun k => Some (fst now k)) (fun k => Some (fst now k)) tt)
    (fun x => src_res x x (lagged ["source"%string] (fun _ => KFunction) 0 last now)
                          (lagged ["source"%string] (fun _ => KFunction) 0 last now) tt) 1 (1/2) (fun _ => 0) y.
Proof.
  exists (fun _ => 1/2 * fst now "source"%string + 1/2 * fst last "source"%string). intros x.
  unfold src_res, lagged. cbn. lra.
Qed.

Print Assumptions C27_explicit_invariant.
Print Assumptions C27_implicit_invariant.
Print Assumptions C27_solution_form_invariant.
Print Assumptions C27_imex_invariant.
Print Assumptions C27_theta_invariant.
Print Assumptions C27_forward_euler_invariant.
Print Assumptions C27_theta_steady.
Print Assumptions C27_ale_invariant.
Print Assumptions C27_ale_steady.
Print Assumptions C27_explicit_steady.
Print Assumptions C27_implicit_steady.
Print Assumptions C27_history_invariant.
Print Assumptions C27_tendency_form_displaced_mass_refuted.
Print Assumptions C27_picard_displaced_mass_refuted.
Print Assumptions C29_shuosher_chain.
Print Assumptions C29_implicit_chain.
Print Assumptions C29_solution_form_chain.
Print Assumptions C29_theta_chain.
Print Assumptions C29_butcher_chain_without_changes.
Print Assumptions C29_butcher_chain_reinitialized.
Print Assumptions C29_butcher_chain_refuted.
Print Assumptions C29_imex_chain_without_changes.
Print Assumptions C29_imex_uninitialized_refuted.
Print Assumptions C30_crank_nicolson_lagged_values.
Print Assumptions C30_forward_euler_lagged_values.
Print Assumptions C30_expression_coefficient_dropped_refuted.
