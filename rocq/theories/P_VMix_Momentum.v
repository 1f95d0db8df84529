(** C87, the flow: vertical viscosity, bottom friction, linear drag and wind stress in
    one implicit step. *)
From Coq Require Import Reals List Bool Arith Lia Lra FunctionalExtensionality.
From Verif Require Import Forms_Model Forms_Proofs RK_Model RK_Spec RK_Proofs P_RungeKutta TimeInt_Model
  Galerkin_Proofs P_Galerkin LinSys_Proofs Dissip_Proofs Forms3d_Model Forms3d_Spec P_Tracer3d P_Tracer3d_Bounds Galerkin3d_Model Galerkin3d_Proofs
  P_Galerkin3d Mom3d_Model P_Mom3d VMix_Model VMix_Spec P_VMix.
Import ListNotations.
Open Scope R_scope.

Section Momentum.
Context {V F E Geo : Type}.
Local Notation menv3 := (menv3 V F E).
Variable mesh_of : Geo -> mesh3 V F E.
Variable n_dof : nat.
Variable basis : Geo -> nat -> vfield3 V F E.
Variable solve : ((nat -> R) -> nat -> R) -> (nat -> R) -> nat -> R.
Variable G : (Geo * menv3) -> (nat -> R) -> (nat -> R) -> nat -> R.
Variable semi : bool.
Variable dt : R.

Notation mass := (momentum_mass mesh_of n_dof basis).
Notation vector := (momentum_vector mesh_of n_dof basis).
Notation vel g := (velocity_of n_dof basis g).

Definition mpen (K : menv3) (f : F) : R := larger (m_sipgv K * m_sigv K f true) (m_sipgv K * m_sigv K f false).

(** What is taken from the flow [u] when the speed in the bottom stress is that of
    [old], and what the wind gives. *)
Definition viscosity_takes (g : Geo) (K : menv3) (muv : option (sfield3 V F E)) (u : vfield3 V F E) : R :=
  match muv with None => 0 | Some mu => viscous_loss (mesh_of g) (m_vdg K) (mpen K) mu u end.
Definition bottom_takes (g : Geo) (K : menv3) (old u : vfield3 V F E) : R :=
  if m_friction K then match m_drag K with Some cd => friction_loss (mesh_of g) cd old u | None => 0 end else 0.
Definition drag_takes (g : Geo) (K : menv3) (u : vfield3 V F E) : R :=
  match m_linear K with None => 0 | Some d => drag_loss (mesh_of g) d u end.
Definition wind_gives (g : Geo) (K : menv3) (muv : option (sfield3 V F E)) (u : vfield3 V F E) : R :=
  match muv, m_wind K with Some _, Some tau => wind_work (mesh_of g) tau (m_rho0 K) u | _, _ => 0 end.
Definition taken (g : Geo) (K : menv3) (muv : option (sfield3 V F E)) (old u : vfield3 V F E) : R :=
  viscosity_takes g K muv u + bottom_takes g K old u + drag_takes g K u.

(** Viscosity takes energy from every flow of the space; drag coefficients are not
    negative; the basis functions are independent; the solvers solve. *)
Definition viscous (g : Geo) (K : menv3) (muv : option (sfield3 V F E)) : Prop :=
  forall c, 0 <= viscosity_takes g K muv (vel g c).
Definition drags (K : menv3) : Prop :=
  (forall d, m_quad K = Some d -> forall e, 0 <= d e) /\ (forall d, m_linear K = Some d -> forall p, 0 <= d p).
Definition independent_v (g : Geo) : Prop :=
  forall c, energy3 (mesh_of g) (vel g c) = 0 -> forall i, (i < n_dof)%nat -> c i = 0.
Definition msolvers (g : Geo) (K : menv3) (muv : option (sfield3 V F E)) : Prop :=
  let e := (g, implicit_menv K muv) in
  exact_solver solve /\ (forall u w x, mass g (G e u w) x = vector g (snd e) u w x).

Variable g : Geo.
Notation M := (mesh_of g).
Hypothesis Hpos : positive3 M.
Variable K : menv3.
Variable muv : option (sfield3 V F E).
Hypothesis Hbuild : buildable K.
Notation KI := (implicit_menv K muv).

(** a component of the velocity, as a tracer *)
Definition Kt : tenv3 V F E :=
  mk_tenv3 (m_hdg K) (m_vdg K) false None None None None None None muv (m_sigh K) (m_sigv K) (m_sipgh K) (m_sipgv K)
           None (fun _ => None) 0.

Lemma vvisc_split : forall psi u,
  m_vvisc M KI psi u = ver_diff M Kt (w_x psi) (w_x u) + ver_diff M Kt (w_y psi) (w_y u) + ver_diff M Kt (w_z psi) (w_z u).
Proof.
  intros psi u. unfold m_vvisc, ver_diff. cbn [implicit_menv m_muv Kt k_muv]. destruct muv as [mu|]; [|ring].
  cbn [implicit_menv Kt m_vdg k_vdg m_sipgv m_sigv k_sipgv k_sigv]. cbv beta zeta. unfold dx3, dS_h.
  match goal with |- - (?i + ?x) = - (?j + ?y) + - (?k + ?z) + - (?l + ?w) =>
    assert (A : i = j + k + l) by (rewrite <- !integral_plus; apply integral_ext; intros; cbv beta; ring);
    assert (B : x = y + z + w) end.
  { destruct (m_vdg K); [|ring]. rewrite <- !integral_plus. apply integral_ext. intros f _. cbv beta. ring. }
  rewrite A, B. ring.
Qed.

(** the part of the residual that depends on the solution *)
Definition bfr (w psi u : vfield3 V F E) : R :=
  if m_friction K then
    match m_drag K with
    | Some cd => - ds_bottom M (fun e => cd e * sqrt (a_e (w_x w) e ^ 2 + a_e (w_y w) e ^ 2)
                    * (a_e (w_x psi) e * a_e (w_x u) e + a_e (w_y psi) e * a_e (w_y u) e))
    | None => 0
    end
  else 0.
Definition body (w psi u : vfield3 V F E) : R := m_vvisc M KI psi u + bfr w psi u + m_ldrag M KI psi u.

Lemma residual_parts : forall psi u w, mom_residual M KI psi u w = Some (body w psi u + wind_gives g K muv psi).
Proof.
  intros psi u w. unfold mom_residual, m_bfric, body, bfr.
  change (m_friction KI) with (m_friction K). change (m_drag KI) with (m_drag K).
  assert (P : m_pressure M KI psi = 0) by reflexivity.
  assert (A1 : m_hadv M KI psi u w = 0) by reflexivity.
  assert (A2 : m_vadv M KI psi u = 0) by reflexivity.
  assert (A3 : m_hvisc M KI psi u = 0) by reflexivity.
  assert (A4 : m_cor M KI psi u = 0) by reflexivity.
  assert (A5 : m_src M KI psi = wind_gives g K muv psi).
  { unfold m_src, wind_gives, wind_work. cbn [implicit_menv m_muv m_wind m_rho0 m_source].
    destruct muv; [|ring]. destruct (m_wind K); ring. }
  destruct (m_friction K) eqn:Ef.
  - destruct (m_drag K) eqn:Ed; [|exfalso; apply (Hbuild Ef Ed)].
    change (plus_dav KI u) with u. change (plus_dav KI w) with w.
    rewrite P, A1, A2, A3, A4, A5. f_equal. ring.
  - rewrite P, A1, A2, A3, A4, A5. f_equal. ring.
Qed.

Lemma body_sym : forall w psi u, body w psi u = body w u psi.
Proof.
  intros w psi u. unfold body, bfr, m_ldrag. rewrite !vvisc_split.
  rewrite (proj1 (C59_diffusion_symmetric M Kt (w_x psi) (w_x u))).
  rewrite (proj1 (C59_diffusion_symmetric M Kt (w_y psi) (w_y u))).
  rewrite (proj1 (C59_diffusion_symmetric M Kt (w_z psi) (w_z u))).
  f_equal; [f_equal|].
  - destruct (m_friction K); [|reflexivity]. destruct (m_drag K); [|reflexivity]. f_equal. apply integral_ext. intros; ring.
  - cbn [implicit_menv m_linear]. destruct (m_linear K); [|reflexivity]. f_equal. apply integral_ext.
    intros. change (plus_dav KI u) with u. change (plus_dav KI psi) with psi. unfold dot3. ring.
Qed.

Lemma testv_plus : forall f h : vfield3 V F E -> R, lin_testv f -> lin_testv h -> lin_testv (fun p => f p + h p).
Proof.
  intros f h (fx & fy & fz & A1 & A2 & A3 & A) (hx & hy & hz & B1 & B2 & B3 & B).
  exists (fun q => fx q + hx q), (fun q => fy q + hy q), (fun q => fz q + hz q).
  split; [apply lin3_plus; assumption|]. split; [apply lin3_plus; assumption|]. split; [apply lin3_plus; assumption|].
  intro psi. rewrite A, B. ring.
Qed.

Lemma body_test : forall w u, lin_testv (fun psi => body w psi u).
Proof.
  intros w u. unfold body. apply (testv_plus (fun psi => m_vvisc M KI psi u + bfr w psi u)); [apply testv_plus|].
  - exists (fun q => ver_diff M Kt q (w_x u)), (fun q => ver_diff M Kt q (w_y u)), (fun q => ver_diff M Kt q (w_z u)).
    split; [apply lin3_ver_diff|]. split; [apply lin3_ver_diff|]. split; [apply lin3_ver_diff|]. intro psi. apply vvisc_split.
  - unfold bfr. destruct (m_friction K); [|exists (fun _ => 0), (fun _ => 0), (fun _ => 0);
      repeat (split; [apply lin3_zero|]); intro; ring].
    destruct (m_drag K) as [cd|]; [|exists (fun _ => 0), (fun _ => 0), (fun _ => 0); repeat (split; [apply lin3_zero|]); intro; ring].
    set (b := fun e => cd e * sqrt (a_e (w_x w) e ^ 2 + a_e (w_y w) e ^ 2)).
    assert (L : forall c : sfield3 V F E, lin_test3 (fun q : sfield3 V F E => - ds_bottom M (fun e => b e * (a_e q e * a_e c e)))).
    { intro c. apply lin3_opp. apply lin3_integral. intro e. split; [cbn; ring|]. intros. cbn. ring. }
    exists (fun q => - ds_bottom M (fun e => b e * (a_e q e * a_e (w_x u) e))),
           (fun q => - ds_bottom M (fun e => b e * (a_e q e * a_e (w_y u) e))), (fun _ => 0).
    split; [apply L|]. split; [apply L|]. split; [apply lin3_zero|].
    intro psi. unfold ds_bottom. rewrite Rplus_0_r, <- Ropp_plus_distr, <- integral_plus. f_equal. apply integral_ext. intros e _. fold (b e). ring.
  - unfold m_ldrag. cbn [implicit_menv m_linear].
    destruct (m_linear K) as [d|]; [|exists (fun _ => 0), (fun _ => 0), (fun _ => 0); repeat (split; [apply lin3_zero|]); intro; ring].
    assert (L : forall c : sfield3 V F E, lin_test3 (fun q : sfield3 V F E => - dx3 M (fun p => d p * (a_v q p * a_v c p)))).
    { intro c. apply lin3_opp. apply lin3_integral. intro e. split; [cbn; ring|]. intros. cbn. ring. }
    exists (fun q => - dx3 M (fun p => d p * (a_v q p * a_v (w_x u) p))),
           (fun q => - dx3 M (fun p => d p * (a_v q p * a_v (w_y u) p))),
           (fun q => - dx3 M (fun p => d p * (a_v q p * a_v (w_z u) p))).
    split; [apply L|]. split; [apply L|]. split; [apply L|].
    intro psi. unfold dx3. rewrite <- !Ropp_plus_distr, <- !integral_plus. f_equal. apply integral_ext. intros p _.
    change (plus_dav KI u) with u. unfold dot3, val_v. cbn [c0 c1 c2]. ring.
Qed.

Lemma wind_test : lin_testv (fun psi => wind_gives g K muv psi).
Proof.
  unfold wind_gives. destruct muv; [|exists (fun _ => 0), (fun _ => 0), (fun _ => 0); repeat (split; [apply lin3_zero|]); intro; ring].
  destruct (m_wind K) as [tau|]; [|exists (fun _ => 0), (fun _ => 0), (fun _ => 0); repeat (split; [apply lin3_zero|]); intro; ring].
  assert (L : forall c : E -> R, lin_test3 (fun q : sfield3 V F E => ds_surf M (fun e => c e * a_e q e / m_rho0 K))).
  { intro c. apply lin3_integral. intro e. split; [cbn; unfold Rdiv; ring|]. intros. cbn. unfold Rdiv. ring. }
  exists (fun q => ds_surf M (fun e => c0 (tau e) * a_e q e / m_rho0 K)), (fun q => ds_surf M (fun e => c1 (tau e) * a_e q e / m_rho0 K)), (fun _ => 0).
  split; [apply L|]. split; [apply L|]. split; [apply lin3_zero|].
  intro psi. unfold wind_work, ds_surf. rewrite Rplus_0_r, <- integral_plus. apply integral_ext. intros e _. unfold Rdiv. ring.
Qed.

Lemma testv_comb : forall f : vfield3 V F E -> R, lin_testv f -> forall n u a v psi,
  f (vcomb3 n (fun i => u i + a * v i) psi) = f (vcomb3 n u psi) + a * f (vcomb3 n v psi).
Proof.
  intros f (fx & fy & fz & (_ & X) & (_ & Y) & (_ & Z) & H) n u a v psi. rewrite !H. unfold vcomb3; cbn [w_x w_y w_z].
  rewrite !comb3_plus, X, Y, Z. ring.
Qed.

(** rows of the body and of the wind *)
Definition brow (w : nat -> R) (u : nat -> R) (i : nat) : R :=
  if Nat.ltb i n_dof then body (vel g w) (basis g i) (vel g u) else 0.
Definition wrow (i : nat) : R := if Nat.ltb i n_dof then wind_gives g K muv (basis g i) else 0.

Lemma vector_parts : forall u w i, vector g KI u w i = brow w u i + wrow i.
Proof.
  intros u w i. unfold momentum_vector, brow, wrow. destruct (Nat.ltb i n_dof); [|ring]. rewrite residual_parts. reflexivity.
Qed.

Lemma brow_linear : forall w u a v i, brow w (fun x => u x + a * v x) i = brow w u i + a * brow w v i.
Proof.
  intros w u a v i. unfold brow. destruct (Nat.ltb i n_dof); [|ring].
  rewrite (body_sym _ (basis g i) (vel g (fun x => u x + a * v x))), (body_sym _ (basis g i) (vel g u)), (body_sym _ (basis g i) (vel g v)).
  apply (testv_comb (fun psi => body (vel g w) psi (basis g i)) (body_test _ _)).
Qed.

Lemma mmass_test : forall u : vfield3 V F E, lin_testv (fun psi : vfield3 V F E => dx3 M (fun p => dot3 (val_v u p) (val_v psi p))).
Proof.
  intro u. exists (fun q => dx3 M (fun p => a_v (w_x u) p * a_v q p)), (fun q => dx3 M (fun p => a_v (w_y u) p * a_v q p)),
                  (fun q => dx3 M (fun p => a_v (w_z u) p * a_v q p)).
  split; [apply lin3_mass|]. split; [apply lin3_mass|]. split; [apply lin3_mass|].
  intro psi. unfold dx3. rewrite <- !integral_plus. reflexivity.
Qed.

Lemma mmass_linear : forall u a v i, mass g (fun x => u x + a * v x) i = mass g u i + a * mass g v i.
Proof.
  intros u a v i. unfold momentum_mass. destruct (Nat.ltb i n_dof); [|ring].
  assert (S : forall c, dx3 M (fun p => dot3 (val_v (vel g c) p) (val_v (basis g i) p)) = dx3 M (fun p => dot3 (val_v (basis g i) p) (val_v (vel g c) p))).
  { intro c. apply integral_ext. intros; unfold dot3; ring. }
  rewrite !S. apply (testv_comb (fun psi : vfield3 V F E => dx3 M (fun p => dot3 (val_v (basis g i) p) (val_v psi p))) (mmass_test _)).
Qed.

Lemma work_mmass : forall u v, row_sum n_dof v (mass g u) = dx3 M (fun p => dot3 (val_v (vel g u) p) (val_v (vel g v) p)).
Proof.
  intros u v. unfold velocity_of at 2.
  rewrite <- (work_testv (fun psi : vfield3 V F E => dx3 M (fun p => dot3 (val_v (vel g u) p) (val_v psi p))) (mmass_test _) n_dof v (basis g)).
  unfold row_sum. apply rsum_ext. intros i Hi. unfold momentum_mass. apply Nat.ltb_lt in Hi. rewrite Hi. reflexivity.
Qed.
Lemma work_brow : forall w u v, row_sum n_dof v (brow w u) = body (vel g w) (vel g v) (vel g u).
Proof.
  intros w u v. unfold velocity_of at 2.
  rewrite <- (work_testv (fun psi => body (vel g w) psi (vel g u)) (body_test _ _) n_dof v (basis g)). reflexivity.
Qed.
Lemma work_wrow : forall v, row_sum n_dof v wrow = wind_gives g K muv (vel g v).
Proof.
  intro v. unfold velocity_of. rewrite <- (work_testv (fun psi => wind_gives g K muv psi) wind_test n_dof v (basis g)). reflexivity.
Qed.

(** The equation tested with the flow itself. *)
Lemma body_self : forall w u, body w u u = - taken g K muv w u.
Proof.
  intros w u. unfold body, taken. rewrite vvisc_split.
  assert (A : ver_diff M Kt (w_x u) (w_x u) + ver_diff M Kt (w_y u) (w_y u) + ver_diff M Kt (w_z u) (w_z u) = - viscosity_takes g K muv u).
  { unfold ver_diff, viscosity_takes. cbn [Kt k_muv]. destruct muv as [mu|]; [|ring]. cbn [Kt k_vdg k_sipgv k_sigv].
    unfold viscous_loss, mpen.
    rewrite !(loss_form M (m_vdg K) (m_sigv K) (m_sipgv K) mu). cbv beta zeta. ring. }
  assert (B : bfr w u u = - bottom_takes g K w u).
  { unfold bfr, bottom_takes. destruct (m_friction K); [|ring]. destruct (m_drag K); [|ring]. unfold friction_loss. f_equal.
    apply integral_ext. intros; ring. }
  assert (C : m_ldrag M KI u u = - drag_takes g K u).
  { unfold m_ldrag, drag_takes. cbn [implicit_menv m_linear]. destruct (m_linear K); [|ring]. reflexivity. }
  rewrite A, B, C. ring.
Qed.

Lemma friction_takes : drags K -> forall w u, 0 <= bottom_takes g K w u /\ 0 <= drag_takes g K u.
Proof.
  intros (D1 & D2) w u. destruct Hpos as (Pc & _ & _ & _ & Pb & _). split.
  - unfold bottom_takes. destruct (m_friction K); [|lra]. destruct (m_drag K) as [cd|] eqn:Ed; [|lra].
    assert (D : forall e, 0 <= cd e).
    { intro e. unfold m_drag in Ed. destruct (m_quad K) as [d|].
      - assert (d = cd) as <- by congruence. now apply (D1 d).
      - destruct (m_z0 K) as [z|]; [|discriminate]. destruct (m_velem K) as [h|]; [|discriminate].
        assert ((fun e => fit_drag (m_kappa K) (h e) (z e)) = cd) as <- by congruence. unfold fit_drag. cbn. nra. }
    apply integral_nonneg; intros e He; [pose proof (Pb e He); lra|].
    apply Rmult_le_pos; [apply Rmult_le_pos; [apply D|apply sqrt_pos]|]. nra.
  - unfold drag_takes. destruct (m_linear K) as [d|]; [|lra].
    apply integral_nonneg; intros e He; [pose proof (Pc e He); lra|]. apply Rmult_le_pos; [now apply D2|]. unfold dot3. nra.
Qed.

Lemma energy_pos : forall u, 0 <= energy3 M u.
Proof.
  intro u. destruct Hpos as (Pc & _). apply integral_nonneg; intros p Hp; [pose proof (Pc p Hp); lra|]. unfold dot3. nra.
Qed.

Hypothesis Hind : independent_v g.
Hypothesis Hvis : viscous g K muv.
Hypothesis Hdrag : drags K.
Hypothesis Hdt : 0 <= dt.
Hypothesis Hsol : msolvers g K muv.

Lemma taken_pos : forall w c, 0 <= taken g K muv w (vel g c).
Proof.
  intros w c. unfold taken. pose proof (Hvis c). destruct (friction_takes Hdrag w (vel g c)). lra.
Qed.

Lemma vel_ext : forall u v, (forall i, (i < n_dof)%nat -> u i = v i) -> vel g u = vel g v.
Proof. intros u v H. unfold velocity_of, vcomb3. rewrite !(comb3_ext n_dof u v _ H). reflexivity. Qed.

(** The implicit equation can be solved for every time step: the stage of the method
    exists, whatever the start and the velocity in the bottom stress. *)
Theorem C87_momentum_solvable : forall base w,
  exists k, k = G (g, KI) (fun x => base x + dt * 1 * k x) w.
Proof.
  intros base w. destruct Hsol as (_ & HG). cbv zeta in HG. cbn [snd] in HG.
  apply (stage_onto n_dof (mass g) (brow w)) with (f := wrow) (T := fun u => G (g, KI) u w).
  - apply mmass_linear.
  - apply brow_linear.
  - intros u v H i Hi. unfold momentum_mass. rewrite (vel_ext u v H). apply Nat.ltb_lt in Hi. rewrite Hi. reflexivity.
  - intros u v H i. unfold brow. rewrite (vel_ext u v H). reflexivity.
  - intros u i Hi. unfold momentum_mass. destruct (Nat.ltb_spec i n_dof); [lia|reflexivity].
  - intros u i Hi. unfold brow. destruct (Nat.ltb_spec i n_dof); [lia|reflexivity].
  - intros u H. apply Hind. rewrite work_mmass in H. pose proof (energy_pos (vel g u)). unfold energy3 in *. lra.
  - intros u. rewrite work_brow, body_self. pose proof (taken_pos (vel g w) u). lra.
  - lra.
  - intros i Hi. unfold wrow. destruct (Nat.ltb_spec i n_dof); [lia|reflexivity].
  - intros u i. rewrite HG. apply vector_parts.
Qed.

Notation part := (momentum_implicit_part solve G semi dt).

(** total velocity before and after: the one to which the depth average has been added *)
Lemma advance_step : forall t uv dav s, let uv' := snd (part g K muv t uv dav s) in
  forall i, (i < n_dof)%nat ->
  mass g (iadd uv' dav) i = mass g (iadd uv dav) i + dt * vector g KI (iadd uv' dav) (iadd uv dav) i.
Proof.
  intros t uv dav s uv'. unfold uv', momentum_implicit_part. cbn [snd].
  set (i0 := set_env (g, KI) (set_sol (iadd uv dav) s)).
  assert (Hsame : sol (dirk_advance BackwardEulerTab G solve semi dt None t i0)
                = sol (dirk_advance BackwardEulerTab (fun _ => G (g, KI)) solve semi dt None t i0)).
  { unfold dirk_advance. unfold i0. cbn [ini set_env set_sol]. destruct (ini s); reflexivity. }
  rewrite Hsame. destruct Hsol as (Hs1 & HG). cbv zeta in HG. cbn [snd] in HG.
  destruct (C24_tendency_form_step BackwardEulerTab (fun _ : (Geo * menv3) => G (g, KI)) solve semi dt None t i0) as [(k & Hk & Hu) _].
  - cbn. lia.
  - exact Hs1.
  - intros i e base w Hi. assert (i = 0)%nat as -> by (cbn in Hi; lia). apply (C87_momentum_solvable base w).
  - specialize (Hk 0%nat ltac:(cbn; lia)). rewrite Hu.
    assert (Eu : along (sol i0) dt (ns BackwardEulerTab) (tb BackwardEulerTab) k = fun x => iadd uv dav x + dt * k 0%nat x).
    { apply functional_extensionality. intro x. unfold along, i0. cbn. ring. }
    assert (Es : along (sol i0) dt 1 (ta BackwardEulerTab 0) k = fun x => iadd uv dav x + dt * k 0%nat x).
    { apply functional_extensionality. intro x. unfold along, i0. cbn. ring. }
    assert (Ew : (if semi then sol i0 else previous_stage (sol i0) dt (ta BackwardEulerTab) 0 k) = iadd uv dav) by (destruct semi; reflexivity).
    rewrite Ew, Es in Hk. rewrite Eu.
    assert (Et : iadd (isub (fun x => iadd uv dav x + dt * k 0%nat x) dav) dav = fun x => iadd uv dav x + dt * k 0%nat x).
    { apply functional_extensionality. intro x. unfold iadd, isub. ring. }
    rewrite Et. intros i Hi. rewrite mmass_linear. f_equal. f_equal. rewrite Hk at 1. apply HG.
Qed.

(** The energy of the total velocity over one step. *)
Theorem C87_momentum_budget : forall t uv dav s,
  let uv' := snd (part g K muv t uv dav s) in
  let before := vel g (iadd uv dav) in
  let after := vel g (iadd uv' dav) in
  energy3 M after + energy_between M after before
  + 2 * dt * (viscosity_takes g K muv after + bottom_takes g K before after + drag_takes g K after)
  = energy3 M before + 2 * dt * wind_gives g K muv after.
Proof.
  intros t uv dav s uv' before after. pose proof (advance_step t uv dav s) as Q. cbv zeta in Q. fold uv' in Q.
  set (b := iadd uv dav) in *. set (a := iadd uv' dav) in *.
  assert (B := step_energy n_dof (mass g) (brow b) mmass_linear).
  assert (Sy : forall u v, row_sum n_dof v (mass g u) = row_sum n_dof u (mass g v)).
  { intros u v. rewrite !work_mmass. apply integral_ext. intros; unfold dot3; ring. }
  specialize (B Sy wrow dt b a). rewrite !work_mmass, work_brow, work_wrow, body_self in B.
  assert (D : dx3 M (fun p => dot3 (val_v (vel g (fun i => a i + -1 * b i)) p) (val_v (vel g (fun i => a i + -1 * b i)) p)) = energy_between M after before).
  { unfold energy_between, after, before, velocity_of, vcomb3. rewrite !comb3_plus. apply integral_ext. intros p _.
    unfold dot3, sub3, val_v. cbn [w_x w_y w_z add_s scale3 a_v c0 c1 c2]. ring. }
  rewrite D in B. fold after before in B. unfold taken in B. unfold energy3.
  set (W := wind_gives g K muv after) in *.
  set (T := viscosity_takes g K muv after + bottom_takes g K before after + drag_takes g K after) in *.
  enough (dx3 M (fun p => dot3 (val_v after p) (val_v after p)) + energy_between M after before
     = dx3 M (fun p => dot3 (val_v before p) (val_v before p)) + 2 * dt * (- T + W)) by lra.
  apply B. intros i Hi. rewrite Q by exact Hi. rewrite vector_parts. ring.
Qed.

(** Without wind no step gives the flow energy, however long it is. *)
Theorem C87_momentum_decay : forall t uv dav s, m_wind K = None \/ muv = None ->
  let uv' := snd (part g K muv t uv dav s) in
  energy3 M (vel g (iadd uv' dav)) <= energy3 M (vel g (iadd uv dav)).
Proof.
  intros t uv dav s Hw uv'. pose proof (C87_momentum_budget t uv dav s) as B. cbv zeta in B. fold uv' in B.
  assert (Z : wind_gives g K muv (vel g (iadd uv' dav)) = 0).
  { unfold wind_gives. destruct Hw as [-> | ->]; [destruct muv|]; reflexivity. }
  rewrite Z in B. pose proof (taken_pos (vel g (iadd uv dav)) (iadd uv' dav)) as P. unfold taken in P.
  assert (0 <= energy_between M (vel g (iadd uv' dav)) (vel g (iadd uv dav))).
  { destruct Hpos as (Pc & _). apply integral_nonneg; intros p Hp; [pose proof (Pc p Hp); lra|]. cbv zeta. unfold dot3.
    match goal with |- 0 <= ?x * ?x + ?y * ?y + ?z * ?z => pose proof (Rle_0_sqr x); pose proof (Rle_0_sqr y); pose proof (Rle_0_sqr z); unfold Rsqr in *; lra end. }
  set (T := viscosity_takes g K muv (vel g (iadd uv' dav)) + _ + _) in *.
  assert (0 <= dt * T) by (apply Rmult_le_pos; assumption). lra.
Qed.

(** Momentum: vertical viscosity moves it between layers only; the bottom and the drag
    take it, the wind gives it. *)
Theorem C87_momentum_total : forall t uv dav s ex ey ones,
  comb3 n_dof ones (fun i => w_x (basis g i)) = const3 ex ->
  comb3 n_dof ones (fun i => w_y (basis g i)) = const3 ey ->
  comb3 n_dof ones (fun i => w_z (basis g i)) = const3 0 ->
  let uv' := snd (part g K muv t uv dav s) in
  let before := vel g (iadd uv dav) in
  let after := vel g (iadd uv' dav) in
  let along_e (u : v3) := ex * c0 u + ey * c1 u in
  let total u := dx3 M (fun p => along_e (val_v u p)) in
  total after
  = total before
    + dt * ((match muv, m_wind K with
             | Some _, Some tau => ds_surf M (fun e => along_e (tau e) / m_rho0 K)
             | _, _ => 0 end)
            - (if m_friction K then
                 match m_drag K with
                 | Some cd => ds_bottom M (fun e => cd e * sqrt (a_e (w_x before) e ^ 2 + a_e (w_y before) e ^ 2)
                                                   * along_e (val_e after e))
                 | None => 0
                 end
               else 0)
            - (match m_linear K with None => 0 | Some d => dx3 M (fun p => d p * along_e (val_v after p)) end)).
Proof.
  intros t uv dav s ex ey ones Hx Hy Hz uv' before after along_e total.
  pose proof (advance_step t uv dav s) as Q. cbv zeta in Q. fold uv' in Q.
  set (b := iadd uv dav) in *. set (a := iadd uv' dav) in *.
  assert (E1 : vel g ones = mk_vf3 (const3 ex) (const3 ey) (const3 0)) by (unfold velocity_of, vcomb3; rewrite Hx, Hy, Hz; reflexivity).
  assert (T : forall c, row_sum n_dof ones (mass g c) = total (vel g c)).
  { intro c. rewrite work_mmass, E1. apply integral_ext. intros p _. unfold along_e, dot3, val_v.
    cbn [w_x w_y w_z const3 a_v c0 c1 c2]. ring. }
  change (total after) with (total (vel g a)). change (total before) with (total (vel g b)). rewrite <- (T a), <- (T b).
  assert (W : row_sum n_dof ones (mass g a) = row_sum n_dof ones (fun i => mass g b i + dt * (brow b a i + 1 * wrow i))).
  { unfold row_sum. apply rsum_ext. intros i Hi. rewrite Q by exact Hi. rewrite vector_parts. ring. }
  rewrite W, !work_plus, work_brow, work_wrow, E1. f_equal. f_equal. unfold body.
  assert (V0 : forall k (c : sfield3 V F E), ver_diff M Kt (const3 k) c = 0).
  { intros k c. unfold ver_diff. destruct (k_muv Kt); [|reflexivity]. unfold dx3, dS_h.
    rewrite integral_zero by (intros; cbn; ring). destruct (k_vdg Kt); [|ring].
    rewrite integral_zero; [ring|]. intros f _. unfold jump3, avg, nrm, add3, scal3, opp3. cbn [const3 a_f a_gf zero3 c0 c1 c2]. ring. }
  rewrite vvisc_split. cbn [w_x w_y w_z]. rewrite !V0.
  assert (WI : wind_gives g K muv (mk_vf3 (const3 ex) (const3 ey) (const3 0))
    = match muv, m_wind K with Some _, Some tau => ds_surf M (fun e => along_e (tau e) / m_rho0 K) | _, _ => 0 end).
  { unfold wind_gives. destruct muv; [|reflexivity]. destruct (m_wind K); [|reflexivity]. apply integral_ext. intros e _.
    unfold along_e. cbn [w_x w_y const3 a_e]. unfold Rdiv. ring. }
  rewrite WI.
  assert (FR : bfr (vel g b) (mk_vf3 (const3 ex) (const3 ey) (const3 0)) (vel g a)
    = - (if m_friction K then match m_drag K with
        | Some cd => ds_bottom M (fun e => cd e * sqrt (a_e (w_x before) e ^ 2 + a_e (w_y before) e ^ 2) * along_e (val_e after e))
        | None => 0 end else 0)).
  { unfold bfr. destruct (m_friction K); [|ring]. destruct (m_drag K); [|ring]. reflexivity. }
  assert (DR : m_ldrag M KI (mk_vf3 (const3 ex) (const3 ey) (const3 0)) (vel g a)
    = - (match m_linear K with None => 0 | Some d => dx3 M (fun p => d p * along_e (val_v after p)) end)).
  { unfold m_ldrag. cbn [implicit_menv m_linear]. destruct (m_linear K); [|ring]. f_equal. apply integral_ext. intros p _.
    change (plus_dav KI (vel g a)) with after. unfold along_e, dot3, val_v. cbn [w_x w_y w_z const3 a_v c0 c1 c2]. ring. }
  rewrite FR, DR. ring.
Qed.
End Momentum.

Print Assumptions C87_momentum_solvable.
Print Assumptions C87_momentum_budget.
Print Assumptions C87_momentum_decay.
Print Assumptions C87_momentum_total.
