(** C82: whole 3D runs: the amount of a tracer on the moving mesh, and the volume
    of the mesh. *)
From Coq Require Import Reals List Bool Arith Lia Lra FunctionalExtensionality.
From Verif Require Import Forms_Model Forms_Proofs RK_Model RK_Spec RK_Proofs RK_Proofs4 P_RungeKutta TimeInt_Model
  Galerkin_Proofs P_Galerkin Forms3d_Model Forms3d_Spec P_Tracer3d Galerkin3d_Model Galerkin3d_Proofs.
Import ListNotations.
Open Scope R_scope.

Section Runs3d.
Context {V F E Geo : Type}.
Local Notation tenv3 := (tenv3 V F E).
Notation KS := (const3 (V:=V) (F:=F) (E:=E)).
Variable mesh_of : Geo -> mesh3 V F E.
Variable n_dof : nat.
Variable basis : Geo -> nat -> sfield3 V F E.
(** the coefficients of the function 1; the basis moves with the mesh, so they
    are the same on each *)
Variable ones : nat -> R.
Hypothesis Hone : forall g, comb3 n_dof ones (basis g) = KS 1.

Notation field g := (tracer3_of n_dof basis g).
Notation rows := (fun r : nat -> R => row_sum n_dof ones r).

(** Amount of tracer in the water, and of water. *)
Definition amount (g : Geo) (c : nat -> R) : R := dx3 (mesh_of g) (a_v (field g c)).
Definition volume (g : Geo) : R := dx3 (mesh_of g) (fun _ => 1).

(** Tracer entering per unit time on the mesh [g] with the fields [K]: through
    the free surface, through the lateral boundaries, by horizontal diffusion
    across a sloping bottom or surface, and from the source. *)
Definition influx (g : Geo) (K : tenv3) (c : nat -> R) : R :=
  - ds_surf (mesh_of g) (surf_out (mesh_of g) K (field g c))
  - ds_lat (mesh_of g) (lat_out (mesh_of g) K (field g c))
  + match k_muh K with
    | None => 0
    | Some mu => let out e := a_e mu e * doth (a_ge (field g c) e) (g_ne (mesh_of g) e) in
                 ds_bottom (mesh_of g) out + ds_surf (mesh_of g) out
    end
  + match k_source K with None => 0 | Some s => dx3 (mesh_of g) s end.

Lemma rows_linear : linear rows.
Proof. apply (row_sum_linear n_dof ones (fun i => i)). Qed.

(** The rows of the assembled equation, summed up as 1 is from the basis
    functions. *)
Theorem C82_rows_budget : forall g K c,
  rows (tracer3_vector mesh_of n_dof basis g K c) = influx g K c.
Proof.
  intros g K c.
  transitivity (tracer_residual3 (mesh_of g) K (comb3 n_dof ones (basis g)) (field g c)).
  - rewrite (lin3_comb _ (lin3_residual (mesh_of g) K (field g c))).
    unfold row_sum. apply rsum_ext. intros i Hi. unfold tracer3_vector.
    apply Nat.ltb_lt in Hi. rewrite Hi. reflexivity.
  - rewrite Hone. unfold tracer_residual3, influx. rewrite C59_advection_budget.
    destruct (C59_diffusion_budget (mesh_of g) K (field g c)) as (-> & ->).
    assert (S : tsource (mesh_of g) K (KS 1) = match k_source K with None => 0 | Some s => dx3 (mesh_of g) s end).
    { unfold tsource. destruct (k_source K) as [s|]; [|reflexivity]. unfold dx3. apply integral_ext.
      intros p _. cbn [const3 a_v]. ring. }
    rewrite S. cbv zeta. destruct (k_muh K), (k_source K); ring.
Qed.

Lemma mass_rows3 : forall g c, rows (tracer3_mass mesh_of n_dof basis g c) = amount g c.
Proof.
  intros g c.
  transitivity (dx3 (mesh_of g) (fun p => a_v (field g c) p * a_v (comb3 n_dof ones (basis g)) p)).
  - rewrite (lin3_comb _ (lin3_mass (mesh_of g) (a_v (field g c)))).
    unfold row_sum. apply rsum_ext. intros i Hi. unfold tracer3_mass.
    apply Nat.ltb_lt in Hi. rewrite Hi. reflexivity.
  - rewrite Hone. unfold amount, dx3. apply integral_ext. intros p _. cbn [const3 a_v]. ring.
Qed.

Lemma comb3_v : forall n c (phi : nat -> sfield3 V F E) p,
  a_v (comb3 n c phi) p = rsum n (fun i => c i * a_v (phi i) p).
Proof.
  intros n c phi p. induction n as [|n IH]; [reflexivity|].
  cbn [comb3 add_s scale3 a_v]. rewrite IH. unfold rsum; cbn. ring.
Qed.
Lemma amount_linear : forall g, linear (amount g).
Proof.
  intro g. split; intros; unfold amount, tracer3_of, dx3.
  - rewrite <- integral_plus. apply integral_ext. intros p _. rewrite !comb3_v.
    rewrite <- rsum_plus. apply rsum_ext. intros i _. ring.
  - rewrite <- integral_scal. apply integral_ext. intros p _. rewrite !comb3_v.
    rewrite <- rsum_scal. apply rsum_ext. intros i _. ring.
Qed.

(** The constant 1 amounts to the volume. *)
Theorem C82_constant_amount : forall g k, amount g (fun i => k * ones i) = k * volume g.
Proof.
  intros g k. destruct (amount_linear g) as [_ H]. rewrite H. f_equal.
  unfold amount, tracer3_of. rewrite Hone. reflexivity.
Qed.

Variable msolve : Geo -> (nat -> R) -> nat -> R.
Variable limit : Geo -> (nat -> R) -> nat -> R.
Variable solve : ((nat -> R) -> nat -> R) -> (nat -> R) -> nat -> R.
Variable G : (Geo * tenv3) -> (nat -> R) -> (nat -> R) -> nat -> R.
Variable semi : bool.
Variable dt : R.
Variable uf : option (R -> tenv3 -> tenv3).

Notation mass := (tracer3_mass mesh_of n_dof basis).
Notation vector := (tracer3_vector mesh_of n_dof basis).
Notation state := (tracer_state (V:=V) (F:=F) (E:=E) (Geo:=Geo)).
Notation conc s := (asol (expl s)).
Notation geo s := (ageo (expl s)).

(** The linear solver inverts the mass matrix, the limiter keeps the amount
    (it keeps each cell's mean, C36). *)
Hypothesis Hsolve : forall g m, mass g (msolve g m) = m.
Hypothesis Hlimit : forall g c, amount g (limit g c) = amount g c.

(** The implicit equation can be solved on the mesh [g]. *)
Definition diffusible (implicit : bool) (g : Geo) (K : tenv3) (muv : option (sfield3 V F E)) : Prop :=
  implicit = true ->
  let e := (g, implicit_env K muv) in
  exact_solver solve /\
  (forall u w x, mass g (G e u w) x = vector g (snd e) u x) /\
  (forall base w, exists k, k = G e (fun x => base x + dt * 1 * k x) w).

(** Vertical diffusion, backward Euler: the amount stays. *)
Theorem C82_implicit_part : forall implicit muv t (s : state),
  diffusible implicit (geo s) (aenv (expl s)) muv ->
  let s' := implicit_part solve G semi dt implicit muv t s in
  amount (geo s) (conc s') = amount (geo s) (conc s) /\
  geo s' = geo s /\ amu (expl s') = amu (expl s) /\ aold (expl s') = aold (expl s).
Proof.
  intros implicit muv t s Hd s'. unfold s', implicit_part. destruct implicit; [|repeat split; reflexivity].
  destruct (Hd eq_refl) as (Hs & HG & Hex). cbv zeta in HG, Hex.
  cbn [expl assign asol ageo amu aold]. split; [|split; [reflexivity|split; reflexivity]].
  set (e0 := (geo s, implicit_env (aenv (expl s)) muv)) in *.
  set (i0 := set_env e0 (set_sol (conc s) (impl s))).
  assert (Hsame : sol (dirk_advance BackwardEulerTab G solve semi dt None t i0)
                = sol (dirk_advance BackwardEulerTab (fun _ => G e0) solve semi dt None t i0)).
  { unfold dirk_advance. unfold i0. cbn [ini set_env set_sol]. destruct (ini (impl s)); reflexivity. }
  rewrite Hsame.
  destruct (C24_tendency_form_step BackwardEulerTab (fun _ : (Geo * tenv3) => G e0) solve semi dt None t i0) as [(k & Hk & Hu) _].
  - cbn. lia.
  - exact Hs.
  - intros i e base w Hi. assert (i = 0)%nat as -> by (cbn in Hi; lia). apply (Hex base w).
  - rewrite Hu. rewrite (lin_along _ (amount_linear (geo s))).
    assert (Z : amount (geo s) (k 0%nat) = 0).
    { rewrite (Hk 0%nat) by (cbn; lia). rewrite <- mass_rows3.
      match goal with |- row_sum _ _ (tracer3_mass _ _ _ _ (G e0 ?u ?w)) = 0 =>
        transitivity (rows (vector (geo s) (snd e0) u));
        [unfold row_sum; apply rsum_ext; intros i _; rewrite HG; reflexivity|] end.
      rewrite C82_rows_budget. unfold influx, e0. cbn [snd implicit_env k_muh k_source].
      unfold ds_surf, ds_lat. rewrite !integral_zero; [ring| |].
      - intros x _. unfold lat_out, full_uv. cbn [implicit_env k_uv]. reflexivity.
      - intros x _. unfold surf_out, full_uv, vertvelo. cbn [implicit_env k_uv k_w]. ring. }
    unfold i0. cbn [sol set_env set_sol]. unfold rsum. cbn [BackwardEulerTab tab ns length fold_right seq].
    cbn. rewrite Z. ring.
Qed.

(** One step of the two-stage Runge-Kutta integrator. *)
Theorem C82_rk_budget : forall implicit K0 K1 g1 g2 muv t (s : state),
  let K0' := force uf (t + 0 * dt) K0 in
  let K1' := force uf (t + 1 * dt) K1 in
  let c1 := asol (stage_one mesh_of n_dof basis msolve limit dt uf K0 g1 t (expl s)) in
  diffusible implicit g2 K1' muv ->
  let s' := rk_tracer_step mesh_of n_dof basis msolve limit solve G semi dt uf implicit K0 K1 g1 g2 muv t s in
  geo s' = g2 /\
  amount g2 (conc s') = amount (geo s) (conc s) + dt / 2 * (influx (geo s) K0' (conc s) + influx g1 K1' c1).
Proof.
  intros implicit K0 K1 g1 g2 muv t s K0' K1' c1 Hd s'. unfold s', rk_tracer_step.
  set (e2 := stage_two mesh_of n_dof basis msolve limit dt uf K1 g2 t
              (stage_one mesh_of n_dof basis msolve limit dt uf K0 g1 t (expl s))).
  destruct (C82_implicit_part implicit muv t (mk_ts e2 (impl s))) as (H1 & H2 & _).
  { exact Hd. }
  cbv zeta in H1, H2. split; [rewrite H2; reflexivity|].
  cbn [expl] in H1. change (ageo e2) with g2 in H1. rewrite H1. clear H1 H2.
  assert (E2 : asol e2 = limit g2 (msolve g2 (fun x => 1/2 * (mass (geo s) (conc s) x + dt * vector (geo s) K0' (conc s) x)
             + 1/2 * mass (geo s) (conc s) x + 1/2 * (dt * vector g1 K1' c1 x)))) by reflexivity.
  rewrite E2, Hlimit, <- mass_rows3, Hsolve.
  destruct rows_linear as [La Ls]. cbv beta in La, Ls.
  rewrite (La (fun x => 1/2 * (mass (geo s) (conc s) x + dt * vector (geo s) K0' (conc s) x) + 1/2 * mass (geo s) (conc s) x)
              (fun x => 1/2 * (dt * vector g1 K1' c1 x))).
  rewrite (La (fun x => 1/2 * (mass (geo s) (conc s) x + dt * vector (geo s) K0' (conc s) x))
              (fun x => 1/2 * mass (geo s) (conc s) x)).
  rewrite (Ls (1/2) (fun x => mass (geo s) (conc s) x + dt * vector (geo s) K0' (conc s) x)).
  rewrite (La (mass (geo s) (conc s)) (fun x => dt * vector (geo s) K0' (conc s) x)).
  rewrite (Ls (1/2) (mass (geo s) (conc s))), (Ls (1/2) (fun x => dt * vector g1 K1' c1 x)).
  rewrite (Ls dt (vector (geo s) K0' (conc s))), (Ls dt (vector g1 K1' c1)).
  rewrite !C82_rows_budget, mass_rows3. field.
Qed.

(** One step of the leap-frog Adams-Moulton integrator: the prediction counts
    only through the tracer at the half step. *)
Theorem C82_lf_budget : forall implicit K0 K1 g1 muv t (s : state),
  let half := asol (lf_half mesh_of n_dof basis msolve limit dt K0 (expl s)) in
  diffusible implicit g1 K1 muv ->
  let s' := lf_tracer_step mesh_of n_dof basis msolve limit solve G semi dt implicit K0 K1 g1 muv t s in
  geo s' = g1 /\
  amount g1 (conc s') = amount (geo s) (conc s) + dt * influx (geo s) K1 half.
Proof.
  intros implicit K0 K1 g1 muv t s half Hd s'. unfold s', lf_tracer_step. cbv zeta.
  match goal with |- context [implicit_part _ _ _ _ _ _ _ (mk_ts ?e _)] => set (e1 := e) end.
  destruct (C82_implicit_part implicit muv t (mk_ts e1 (impl s))) as (H1 & H2 & _).
  { exact Hd. }
  cbv zeta in H1, H2. split; [rewrite H2; reflexivity|].
  cbn [expl] in H1. change (ageo e1) with g1 in H1. rewrite H1. clear H1 H2.
  assert (E1 : asol e1 = limit g1 (msolve g1 (fun x => dt * vector (geo s) K1 half x + mass (geo s) (conc s) x))) by reflexivity.
  rewrite E1, Hlimit, <- mass_rows3, Hsolve.
  destruct rows_linear as [La Ls]. cbv beta in La, Ls.
  rewrite (La (fun x => dt * vector (geo s) K1 half x) (mass (geo s) (conc s))).
  rewrite (Ls dt (vector (geo s) K1 half)).
  rewrite C82_rows_budget, mass_rows3. ring.
Qed.

(* ------------------------------------------------------------------ *)
(** * Runs *)

(** Nothing enters: no open lateral boundary, no source, the free surface moves
    with the water, and where there is horizontal diffusion the bottom and the
    surface are level. *)
Definition isolated (g : Geo) (K : tenv3) : Prop :=
  k_source K = None /\
  (forall e, In e (g_lat (mesh_of g)) -> k_bnd K (g_marker (mesh_of g) e) = None) /\
  (forall e, In e (g_surf (mesh_of g)) ->
     (match full_uv K with Some uv => if k_symm K then doth (val_e uv e) (g_ne (mesh_of g) e) else 0 | None => 0 end)
     + (match vertvelo K with Some w => a_e w e * c2 (g_ne (mesh_of g) e) | None => 0 end) = 0) /\
  (k_muh K <> None -> forall e, In e (g_surf (mesh_of g)) \/ In e (g_bot (mesh_of g)) ->
     c0 (g_ne (mesh_of g) e) = 0 /\ c1 (g_ne (mesh_of g) e) = 0).

Lemma isolated_influx : forall g K c, isolated g K -> influx g K c = 0.
Proof.
  intros g K c (Hs & Hl & Hf & Hm). unfold influx. rewrite Hs.
  assert (D : match k_muh K with None => 0 | Some mu =>
     let out e := a_e mu e * doth (a_ge (field g c) e) (g_ne (mesh_of g) e) in
     ds_bottom (mesh_of g) out + ds_surf (mesh_of g) out end = 0).
  { destruct (k_muh K) as [mu|]; [|reflexivity]. cbv zeta. unfold ds_bottom, ds_surf.
    rewrite !integral_zero; [ring| |]; intros e He; unfold doth;
      destruct (Hm ltac:(discriminate) e ltac:(tauto)) as (-> & ->); ring. }
  cbv zeta in D |- *. rewrite D. unfold ds_surf, ds_lat. rewrite (integral_zero (g_surf (mesh_of g))).
  2:{ intros e He. unfold surf_out. rewrite (Hf e He). ring. }
  rewrite (integral_zero (g_lat (mesh_of g))); [ring|].
  intros e He. unfold lat_out, adv_lat. destruct (full_uv K); [|reflexivity].
  rewrite (Hl e He). destruct (k_hdg K); reflexivity.
Qed.

(** What the coupled system gives a tracer in one step. *)
Record given := mk_given { K_first : tenv3; K_second : tenv3; geo_stage : Geo; geo_new : Geo;
                           diffusivity : option (sfield3 V F E); at_t : R }.

Definition rk_run (implicit : bool) (l : list given) (s : state) : state :=
  fold_left (fun s d => rk_tracer_step mesh_of n_dof basis msolve limit solve G semi dt uf implicit
     (K_first d) (K_second d) (geo_stage d) (geo_new d) (diffusivity d) (at_t d) s) l s.
Definition lf_run (implicit : bool) (l : list given) (s : state) : state :=
  fold_left (fun s d => lf_tracer_step mesh_of n_dof basis msolve limit solve G semi dt implicit
     (K_first d) (K_second d) (geo_new d) (diffusivity d) (at_t d) s) l s.

(** [closed_from g l]: every assembly of the run sees an isolated domain. *)
Fixpoint rk_closed (implicit : bool) (g : Geo) (l : list given) : Prop :=
  match l with
  | [] => True
  | d :: r =>
      isolated g (force uf (at_t d + 0 * dt) (K_first d)) /\
      isolated (geo_stage d) (force uf (at_t d + 1 * dt) (K_second d)) /\
      diffusible implicit (geo_new d) (force uf (at_t d + 1 * dt) (K_second d)) (diffusivity d) /\
      rk_closed implicit (geo_new d) r
  end.
Fixpoint lf_closed (implicit : bool) (g : Geo) (l : list given) : Prop :=
  match l with
  | [] => True
  | d :: r =>
      isolated g (K_second d) /\
      diffusible implicit (geo_new d) (K_second d) (diffusivity d) /\
      lf_closed implicit (geo_new d) r
  end.

(** A run of any number of steps in an isolated domain keeps the amount of
    tracer, however the mesh moves, with and without limiter and implicit
    diffusion. *)
Theorem C82_rk_conserved : forall implicit l (s : state), rk_closed implicit (geo s) l ->
  amount (geo (rk_run implicit l s)) (conc (rk_run implicit l s)) = amount (geo s) (conc s).
Proof.
  intros implicit l. induction l as [|d r IH]; intros s H; [reflexivity|].
  destruct H as (H0 & H1 & Hd & Hr). cbn [rk_run fold_left].
  pose proof (C82_rk_budget implicit (K_first d) (K_second d) (geo_stage d) (geo_new d) (diffusivity d) (at_t d) s) as B.
  cbv zeta in B. destruct (B Hd) as (B1 & B2). clear B.
  set (s1 := rk_tracer_step mesh_of n_dof basis msolve limit solve G semi dt uf implicit
     (K_first d) (K_second d) (geo_stage d) (geo_new d) (diffusivity d) (at_t d) s) in *.
  fold (rk_run implicit r s1). rewrite IH by (rewrite B1; exact Hr).
  rewrite B1, B2, !isolated_influx by assumption. lra.
Qed.

Theorem C82_lf_conserved : forall implicit l (s : state), lf_closed implicit (geo s) l ->
  amount (geo (lf_run implicit l s)) (conc (lf_run implicit l s)) = amount (geo s) (conc s).
Proof.
  intros implicit l. induction l as [|d r IH]; intros s H; [reflexivity|].
  destruct H as (H1 & Hd & Hr). cbn [lf_run fold_left].
  pose proof (C82_lf_budget implicit (K_first d) (K_second d) (geo_new d) (diffusivity d) (at_t d) s) as B.
  cbv zeta in B. destruct (B Hd) as (B1 & B2). clear B.
  set (s1 := lf_tracer_step mesh_of n_dof basis msolve limit solve G semi dt implicit
     (K_first d) (K_second d) (geo_new d) (diffusivity d) (at_t d) s) in *.
  fold (lf_run implicit r s1). rewrite IH by (rewrite B1; exact Hr).
  rewrite B1, B2, isolated_influx by assumption. ring.
Qed.
End Runs3d.

(* ------------------------------------------------------------------ *)
(** * Constants in runs *)

(** A uniform tracer stays uniform: any number of steps of either integrator. *)
From Verif Require Import Extrude_Model P_AleConst.
Section Uniform.
Context {V F E N D : Type}.
Variable verts : V -> list N.
Variable lam : V -> N -> R.
Variable ztop zbot : V -> N -> R.
Variable bath : N -> R.
Variable area : V -> R.
Variable mesh_at : (N -> R) -> mesh3 V F E.
Variable phi : (N -> R) -> D -> sfield3 V F E.
Variable fld : (N -> R) -> (D -> R) -> sfield3 V F E.
Variable msolve : (N -> R) -> (D -> R) -> D -> R.
Variable limit : (N -> R) -> (D -> R) -> D -> R.
Variable dt : R.
Variable ob : nat -> bool.
Variable k : R.
Hypothesis SP : space_ok verts lam ztop zbot bath area mesh_at phi fld msolve limit.
Hypothesis Hdt : dt <> 0.
Hypothesis Hbath : forall p n, In n (verts p) -> bath n <> 0.

Notation mass := (mass3 mesh_at phi fld).
Notation res := (res3 mesh_at phi fld).
Notation stage := (stage_ok verts lam ztop zbot bath mesh_at phi ob k).
Notation ast := (ast (D:=D) (Geo:=N -> R) (Env:=tenv3 V F E)).

(** the water column has positive height at elevation [e] *)
Definition wet (e : N -> R) : Prop :=
  forall p, In p (g_cells (mesh_at e)) -> 0 < jac verts lam ztop zbot bath e p.

(** The tracer part of CoupledLeapFrogAM3.advance, coupled_timeintegrator.py:435-548,
    with any element of the tracer space: predict, limit, evaluate, move
    the mesh, correct, limit. *)
Definition lf_coupled (K0 K1 : tenv3 V F E) (e1 : N -> R) (s : ast) : ast :=
  let s := P_AleConst.limited limit (lf_predict mass res msolve dt (with_env K0 s)) in
  let s := ale_move e1 (lf_eval_rhs res dt (with_env K1 s)) in
  P_AleConst.limited limit (lf_correct msolve s).

Lemma stand_res : forall e K d, stage e (fun _ => 0) K -> res e K (fun _ => k) d = 0.
Proof.
  intros e K d S. rewrite (stage_res verts lam ztop zbot bath area mesh_at phi fld msolve limit ob k e _ K d SP S).
  unfold dx3. rewrite integral_zero; [ring|]. intros p Hp. unfold dz_wmesh.
  rewrite integral_zero; [|intros n _; unfold ale_w; unfold Rdiv; ring].
  unfold Rdiv. ring.
Qed.

Lemma move_res : forall e0 e1 K d, wet e0 -> wet e1 ->
  stage e0 (fun n => default_w_surf dt 1 (e0 n) (e1 n)) K ->
  dt * res e0 K (fun _ => k) d = mass e1 (fun _ => k) d - mass e0 (fun _ => k) d.
Proof.
  intros e0 e1 K d W0 W1 S.
  rewrite (stage_res verts lam ztop zbot bath area mesh_at phi fld msolve limit ob k e0 _ K d SP S).
  unfold mass3. rewrite !(sp_unity _ _ _ _ _ _ _ _ _ _ _ SP).
  rewrite !(cells_any verts lam ztop zbot bath area mesh_at phi fld msolve limit e0) by exact SP.
  rewrite <- integral_minus. rewrite <- !integral_scal. apply integral_ext. intros p Hp. cbn [const3 a_v].
  assert (J0 : jac verts lam ztop zbot bath e0 p <> 0) by (specialize (W0 p Hp); lra).
  assert (J1 : jac verts lam ztop zbot bath e1 p <> 0).
  { rewrite (sp_cells _ _ _ _ _ _ _ _ _ _ _ SP e0 e1) in Hp. specialize (W1 p Hp). lra. }
  destruct (stage_volumes verts lam ztop zbot bath area dt e0 e1 e1 p Hdt (Hbath p) J0 J1) as (A & _).
  assert (HW : (fun n => default_w_surf dt 1 (e0 n) (e1 n)) = (fun n => stage_w_surf dt 0 (e0 n) (e1 n) (e1 n))).
  { apply functional_extensionality. intro n. unfold default_w_surf, stage_w_surf. field. exact Hdt. }
  rewrite HW, (sp_moves _ _ _ _ _ _ _ _ _ _ _ SP e1 e0 d p).
  transitivity (k * a_v (phi e0 d) p * (weight verts lam ztop zbot bath area e1 p - weight verts lam ztop zbot bath area e0 p));
    [rewrite <- A; ring|ring].
Qed.

(** One step of the leap-frog integrator: the prediction takes place on the mesh
    at rest, the correction while it moves from [e0] to [e1]. *)
Theorem C82_lf_constants : forall e0 e1 K0 K1 (s : ast),
  wet e0 -> wet e1 ->
  stage e0 (fun _ => 0) K0 ->
  stage e0 (fun n => default_w_surf dt 1 (e0 n) (e1 n)) K1 ->
  ageo s = e0 -> asol s = (fun _ => k) -> aold s = (fun _ => k) ->
  let s' := lf_coupled K0 K1 e1 s in
  ageo s' = e1 /\ asol s' = (fun _ => k) /\ aold s' = (fun _ => k).
Proof.
  intros e0 e1 K0 K1 s W0 W1 S0 S1 Hg Hs Ho s'.
  pose (a := P_AleConst.limited limit (lf_predict mass res msolve dt (with_env K0 s))).
  assert (A1 : asol a = fun _ => k).
  { unfold a. cbn [P_AleConst.limited asol ageo lf_predict with_env aold aenv]. rewrite Hg, Hs, Ho.
    rewrite (sp_solve _ _ _ _ _ _ _ _ _ _ _ SP e0 W0 (fun _ => k)); [apply (sp_limit _ _ _ _ _ _ _ _ _ _ _ SP)|].
    intro d. rewrite (stand_res e0 K0 d S0). unfold lf_gamma. field. }
  assert (A2 : amu_old a = mass e0 (fun _ => k)) by (unfold a; cbn; rewrite Hg, Hs; reflexivity).
  assert (A3 : aold a = fun _ => k) by exact Hs.
  assert (A4 : ageo a = e0) by exact Hg.
  change s' with (P_AleConst.limited limit (lf_correct msolve (ale_move e1 (lf_eval_rhs res dt (with_env K1 a))))).
  clearbody a. split; [reflexivity|]. split; [|exact A3].
  cbn [P_AleConst.limited asol ageo lf_correct ale_move lf_eval_rhs with_env aold aenv amu amu_old]. rewrite A1, A2, A4.
  rewrite (sp_solve _ _ _ _ _ _ _ _ _ _ _ SP e1 W1 (fun _ => k)); [apply (sp_limit _ _ _ _ _ _ _ _ _ _ _ SP)|].
  intro d. rewrite (move_res e0 e1 K1 d W0 W1 S1). ring.
Qed.

(** Runs: the fields and the elevations of each step. *)
Record moved := mk_moved { m_K0 : tenv3 V F E; m_K1 : tenv3 V F E; m_stage : N -> R; m_new : N -> R }.
Definition lf_uniform_run (l : list moved) (s : ast) : ast :=
  fold_left (fun s m => lf_coupled (m_K0 m) (m_K1 m) (m_new m) s) l s.
Definition rk_uniform_run (t0 : R) (l : list moved) (s : ast) : ast :=
  fold_left (fun s m => tracer_step mass res msolve limit dt (m_K0 m) (m_K1 m) (m_stage m) (m_new m) t0 s) l s.
Fixpoint lf_flow (e : N -> R) (l : list moved) : Prop :=
  match l with
  | [] => True
  | m :: r => wet (m_new m) /\ stage e (fun _ => 0) (m_K0 m)
      /\ stage e (fun n => default_w_surf dt 1 (e n) (m_new m n)) (m_K1 m) /\ lf_flow (m_new m) r
  end.
Fixpoint rk_flow (e : N -> R) (l : list moved) : Prop :=
  match l with
  | [] => True
  | m :: r => wet (m_stage m) /\ wet (m_new m)
      /\ stage e (fun n => stage_w_surf dt 0 (e n) (m_stage m n) (m_stage m n)) (m_K0 m)
      /\ stage (m_stage m) (fun n => stage_w_surf dt 1 (e n) (m_stage m n) (m_new m n)) (m_K1 m)
      /\ rk_flow (m_new m) r
  end.

Theorem C82_lf_run_constants : forall l (s : ast), wet (ageo s) -> lf_flow (ageo s) l ->
  asol s = (fun _ => k) -> aold s = (fun _ => k) -> asol (lf_uniform_run l s) = (fun _ => k).
Proof.
  induction l as [|m r IH]; intros s W H Hs Ho; [exact Hs|].
  destruct H as (W1 & S0 & S1 & Hr). cbn [lf_uniform_run fold_left].
  destruct (C82_lf_constants (ageo s) (m_new m) (m_K0 m) (m_K1 m) s W W1 S0 S1 eq_refl Hs Ho) as (A & B & C).
  apply IH; [rewrite A; exact W1|rewrite A; exact Hr|exact B|exact C].
Qed.

Theorem C82_rk_run_constants : forall t0 l (s : ast), wet (ageo s) -> rk_flow (ageo s) l ->
  asol s = (fun _ => k) -> asol (rk_uniform_run t0 l s) = (fun _ => k).
Proof.
  intros t0. induction l as [|m r IH]; intros s W H Hs; [exact Hs|].
  destruct H as (W1 & W2 & S0 & S1 & Hr). cbn [rk_uniform_run fold_left].
  apply IH; [exact W2|exact Hr|].
  apply (C47_constants_kept verts lam ztop zbot bath area mesh_at phi fld msolve limit ob k dt t0
           (ageo s) (m_stage m) (m_new m)); try assumption; try reflexivity.
  intros e p He Hp. destruct He as [<-|[<-|[<-|[]]]].
  - exact (W p Hp).
  - apply W1. rewrite (sp_cells _ _ _ _ _ _ _ _ _ _ _ SP (m_stage m) (ageo s)). exact Hp.
  - apply W2. rewrite (sp_cells _ _ _ _ _ _ _ _ _ _ _ SP (m_new m) (ageo s)). exact Hp.
Qed.
End Uniform.

(* ------------------------------------------------------------------ *)
(** * Volume of the mesh *)

(** Cell points of a column [x] are numbered upwards over the layers; interface 0
    is the bottom and the last one the surface of the reference mesh. *)
Lemma rsum_last : forall n f, rsum (S n) f = rsum n f + f n.
Proof. intros n f. replace (S n) with (n + 1)%nat by lia. rewrite rsum_split. unfold rsum at 2. cbn. rewrite Nat.add_0_r. ring. Qed.

Section Volume.
Context {X N : Type}.
Variable nl : nat.
Variable cols : list X.
Variable verts : X -> list N.
Variable lam : X -> N -> R.
Variable zref : X -> nat -> N -> R.
Variable bath : N -> R.
Variable area : X -> R.
Hypothesis Hbottom : forall x n, zref x 0%nat n = - bath n.
Hypothesis Hsurface : forall x n, zref x nl n = 0.

Definition points : list (X * nat) := flat_map (fun x => map (fun i => (x, i)) (seq 0 nl)) cols.
Definition mesh_volume (e : N -> R) : R :=
  fold_right (fun p acc => weight (fun p => verts (fst p)) (fun p => lam (fst p))
     (fun p => zref (fst p) (S (snd p))) (fun p => zref (fst p) (snd p)) bath (fun p => area (fst p)) e p + acc) 0 points.

Lemma fold_app_sum : forall {A} (f : A -> R) l m, fold_right (fun p acc => f p + acc) 0 (l ++ m)
  = fold_right (fun p acc => f p + acc) 0 l + fold_right (fun p acc => f p + acc) 0 m.
Proof. intros A f l m. induction l as [|x l IH]; cbn; [ring|rewrite IH; ring]. Qed.

Lemma layers : forall (g : nat -> R) n, fold_right (fun i acc => (g (S i) - g i) + acc) 0 (seq 0 n) = g n - g 0%nat.
Proof.
  intros g n. induction n as [|n IH]; [cbn; ring|].
  rewrite seq_S, fold_app_sum, IH. cbn. ring.
Qed.

(** The volume of the moved mesh is the integral of the total water depth over the
    2D mesh, whatever the number and the spacing of the layers. *)
Theorem C82_mesh_volume : forall e, (forall n, bath n <> 0) ->
  mesh_volume e = integral cols area (fun x => integral (verts x) (lam x) (fun n => e n + bath n)).
Proof.
  intros e Hb. unfold mesh_volume, points. induction cols as [|x l IH]; [reflexivity|].
  cbn [flat_map]. rewrite fold_app_sum, IH, integral_cons. f_equal.
  set (g := fun i => integral (verts x) (lam x) (fun n => ale_z (e n) (bath n) (zref x i n))).
  transitivity (area x * (g nl - g 0%nat)).
  - clear IH. rewrite <- (layers g nl). induction (seq 0 nl) as [|i r IHr]; [cbn; ring|].
    cbn [map fold_right]. rewrite IHr. unfold weight, jac. cbn [fst snd]. rewrite integral_minus. unfold g. ring.
  - f_equal. unfold g. rewrite <- integral_minus. apply integral_ext. intros n _.
    rewrite Hbottom, Hsurface. unfold ale_z. field. apply Hb.
Qed.

(** Projecting the elevation keeps its integral, so the 3D mesh holds exactly the
    water of the 2D equations. *)
Lemma projection_keeps_integral : forall pts w n (phi : nat -> X -> R) one q p,
  (forall x, In x pts -> rsum n (fun i => one i * phi i x) = 1) ->
  is_projection pts w n phi q p -> integral pts w p = integral pts w q.
Proof.
  intros pts w n phi one q p H1 (_ & Hm).
  assert (A : forall f : X -> R, integral pts w f = rsum n (fun i => one i * integral pts w (fun x => f x * phi i x))).
  { intro f. transitivity (integral pts w (fun x => rsum n (fun i => one i * (f x * phi i x)))).
    - apply integral_ext. intros x Hx. transitivity (f x * rsum n (fun i => one i * phi i x)); [rewrite (H1 x Hx); ring|].
      rewrite <- rsum_scal. apply rsum_ext. intros i _. ring.
    - clear Hm H1. induction n as [|n IH].
      + unfold rsum. cbn. apply integral_zero. reflexivity.
      + rewrite rsum_last, <- IH. apply integral_lin. intros x _. apply rsum_last. }
  rewrite (A p), (A q). apply rsum_ext. intros i Hi. rewrite (Hm i Hi). reflexivity.
Qed.

Theorem C82_volume_2d : forall ncg nco cg co one1 one2 elev e,
  (forall n, bath n <> 0) ->
  (forall x, In x cols -> rsum ncg (fun i => one1 i * cg i x) = 1) ->
  (forall x, In x cols -> rsum nco (fun i => one2 i * co i x) = 1) ->
  elev_to_coords cols area ncg nco cg co verts lam elev e ->
  mesh_volume e = integral cols area (fun x => elev x + integral (verts x) (lam x) bath).
Proof.
  intros ncg nco cg co one1 one2 elev e Hb O1 O2 (c & P1 & P2).
  rewrite C82_mesh_volume by exact Hb. rewrite integral_plus.
  rewrite <- (projection_keeps_integral _ _ _ _ _ _ _ O1 P1), <- (projection_keeps_integral _ _ _ _ _ _ _ O2 P2).
  rewrite <- integral_plus. apply integral_ext. intros x _. apply integral_plus.
Qed.
End Volume.

(** The projected elevation may undershoot: the depth of the 2D equations is
    positive everywhere and the 3D mesh is turned over. A strip of two cells, 10 m
    below the reference level, water 1 m deep in the first and 9 m in the second
    cell, integrated exactly (Simpson's rule in each cell). *)
Section Inverted.
(** points: cell 0 at 0, 1/2, 1; cell 1 at 1, 3/2, 2 *)
Let hat (i : nat) (x : bool * nat) : R :=
  match x, i with
  | (false, 0%nat), 0%nat => 1 | (false, 1%nat), 0%nat => 1/2
  | (false, 1%nat), 1%nat => 1/2 | (false, 2%nat), 1%nat => 1
  | (true, 0%nat), 1%nat => 1 | (true, 1%nat), 1%nat => 1/2
  | (true, 1%nat), 2%nat => 1/2 | (true, 2%nat), 2%nat => 1
  | _, _ => 0
  end.
Let pts2 : list (bool * nat) := [(false, 0%nat); (false, 1%nat); (false, 2%nat); (true, 0%nat); (true, 1%nat); (true, 2%nat)].
Let w2 (x : bool * nat) : R := match snd x with 1%nat => 4/6 | _ => 1/6 end.
Let elev2 (x : bool * nat) : R := if fst x then -1 else -9.
Let e2 (n : nat) : R := match n with 0%nat => -11 | 1%nat => -5 | _ => 1 end.

Theorem C82_mesh_inverted_refuted :
  (forall x, In x pts2 -> 0 < elev2 x + 10) /\
  elev_to_coords pts2 w2 3 3 hat hat (fun _ => [0; 1; 2]%nat) (fun x n => hat n x) elev2 e2 /\
  (forall n, (n < 3)%nat -> exists x, In x pts2 /\ hat n x = 1) /\
  ale_z (e2 0) 10 0 < ale_z (e2 0) 10 (-10).
Proof.
  split; [|split; [|split]].
  - intros x _. unfold elev2. destruct (fst x); lra.
  - assert (P : forall q, (forall i, (i < 3)%nat -> integral pts2 w2 (fun x => integral [0; 1; 2]%nat (fun n => hat n x) e2 * hat i x)
                   = integral pts2 w2 (fun x => q x * hat i x)) ->
        is_projection pts2 w2 3 hat q (fun x => integral [0; 1; 2]%nat (fun n => hat n x) e2)).
    { intros q H. split; [|exact H]. exists e2. intros x _. unfold integral, rsum. cbn [fold_right]. cbn -[hat e2]. ring. }
    exists (fun x => integral [0; 1; 2]%nat (fun n => hat n x) e2). split; apply P; [|reflexivity].
    intros i Hi. unfold integral, pts2, w2, elev2. cbn [fold_right fst snd].
    assert (i = 0 \/ i = 1 \/ i = 2)%nat as [E0|[E0|E0]] by lia; subst i; cbn -[Rplus Rmult Rdiv IZR Ropp]; field.
  - intros n Hn. assert (n = 0 \/ n = 1 \/ n = 2)%nat as [E0|[E0|E0]] by lia; subst n.
    + exists (false, 0%nat). split; [cbn; tauto|reflexivity].
    + exists (true, 0%nat). split; [cbn; tauto|reflexivity].
    + exists (true, 2%nat). split; [cbn; tauto|reflexivity].
  - unfold ale_z, e2. lra.
Qed.
End Inverted.

(* ------------------------------------------------------------------ *)
(** * Example: a closed column that gets deeper, with implicit diffusion *)
Section Example_.
(** the geometry is the elevation in metres *)
Let mesh1 (e : nat) : mesh3 unit unit nat :=
  mk_mesh3 [tt] (fun _ => 2 * (INR e + 10)) [] [] (fun _ => 0) (fun _ => zero3)
    [0%nat] [1%nat] [2%nat]
    (fun n => match n with 2%nat => 5 | _ => 2 end)
    (fun n => match n with 0%nat => V3 0 0 1 | 1%nat => V3 0 0 (-1) | _ => V3 1 0 0 end) (fun n => n).
(** one basis function, the coefficient of 1 is 1 *)
Let basis1 (_ : nat) (_ : nat) : sfield3 unit unit nat := const3 1.
Let ones1 (i : nat) : R := 1.
Let msolve1 (e : nat) (m : nat -> R) (i : nat) : R := if Nat.ltb i 1 then m i / (2 * (INR e + 10)) else m i.
Let limit1 (_ : nat) (c : nat -> R) : nat -> R := c.
(** the surface and the mesh rise together *)
Let rising (w : R) : sfield3 unit unit nat := const3 w.
Let env1 (w : R) : tenv3 unit unit nat :=
  mk_tenv3 true true true (Some 1) None None (Some (rising w)) (Some (rising w)) None None
    (fun _ _ => 1) (fun _ _ => 1) 1 1 None (fun _ => None) 0.
Let steps1 : list (given (V:=unit) (F:=unit) (E:=nat) (Geo:=nat)) :=
  [mk_given (env1 1) (env1 1) 1%nat 1%nat (Some (const3 3)) 0; mk_given (env1 2) (env1 2) 3%nat 2%nat (Some (const3 3)) 1].

Lemma one_ok : forall g, comb3 1 ones1 (basis1 g) = const3 1.
Proof.
  intro g. unfold comb3, basis1, ones1, scale3, add_s, const3, scal3, add3, zero3. cbn.
  f_equal; repeat (apply functional_extensionality; intro); try (f_equal; ring); ring.
Qed.
Lemma msolve_ok : forall g m, tracer3_mass mesh1 1 basis1 g (msolve1 g m) = m.
Proof.
  intros g m. assert (Hg : INR g + 10 <> 0) by (pose proof (pos_INR g); lra). apply functional_extensionality. intro i. unfold tracer3_mass, msolve1.
  destruct (Nat.ltb i 1) eqn:Ei; [|reflexivity].
  apply Nat.ltb_lt in Ei. assert (i = 0)%nat as -> by lia.
  unfold dx3, integral. cbn. field. exact Hg.
Qed.
Lemma isolated1 : forall g w, isolated mesh1 g (env1 w).
Proof.
  intros g w. split; [reflexivity|]. split; [reflexivity|]. split.
  - intros e [<-|[]]. cbn. ring.
  - intro H. exfalso. apply H. reflexivity.
Qed.
Let G1 (_ : nat * tenv3 unit unit nat) (_ _ : nat -> R) (_ : nat) : R := 0.
Lemma diffusible1 : forall solve g w muv, exact_solver solve ->
  diffusible mesh1 1 basis1 solve G1 1 true g (env1 w) muv.
Proof.
  intros solve g w muv Hs _ e. split; [exact Hs|]. split.
  - intros u w0 x. unfold tracer3_mass, tracer3_vector. destruct (Nat.ltb x 1); [|reflexivity].
    unfold G1, dx3, integral, tracer_residual3, hor_adv, ver_adv, hor_diff, ver_diff, tsource, dx3, dS_h, e.
    destruct muv; cbn; ring.
  - intros base w0. exists (fun _ => 0). reflexivity.
Qed.

Example C82_rk_example : forall solve (s : tracer_state), exact_solver solve -> ageo (expl s) = 0%nat ->
  let run := rk_run mesh1 1 basis1 msolve1 limit1 solve G1 true 1 None true steps1 s in
  ageo (expl run) = 2%nat /\
  amount mesh1 1 basis1 2%nat (asol (expl run)) = amount mesh1 1 basis1 0%nat (asol (expl s)).
Proof.
  intros solve s Hs Hg run. split; [reflexivity|].
  pose proof (C82_rk_conserved mesh1 1 basis1 ones1 one_ok msolve1 limit1 solve G1 true 1 None
                msolve_ok (fun _ _ => eq_refl) true steps1 s) as H.
  rewrite Hg in H. apply H. cbn [rk_closed steps1 force at_t K_first K_second geo_stage geo_new diffusivity].
  pose proof isolated1. pose proof (fun g w muv => diffusible1 solve g w muv Hs) as D.
  split; [apply H0|]. split; [apply H0|]. split; [apply D|]. split; [apply H0|]. split; [apply H0|]. split; [apply D|exact I].
Qed.
Example C82_lf_example : forall solve (s : tracer_state), exact_solver solve -> ageo (expl s) = 0%nat ->
  let run := lf_run mesh1 1 basis1 msolve1 limit1 solve G1 true 1 true steps1 s in
  amount mesh1 1 basis1 2%nat (asol (expl run)) = amount mesh1 1 basis1 0%nat (asol (expl s)).
Proof.
  intros solve s Hs Hg run.
  pose proof (C82_lf_conserved mesh1 1 basis1 ones1 one_ok msolve1 limit1 solve G1 true 1
                msolve_ok (fun _ _ => eq_refl) true steps1 s) as H.
  rewrite Hg in H. apply H. cbn [lf_closed steps1 K_second geo_new diffusivity].
  pose proof isolated1. pose proof (fun g w muv => diffusible1 solve g w muv Hs) as D.
  split; [apply H0|]. split; [apply D|]. split; [apply H0|]. split; [apply D|exact I].
Qed.
(** 35 kg per m3 in 20 m3. *)
Example C82_amount_example : amount mesh1 1 basis1 0%nat (fun _ => 35) = 700.
Proof. unfold amount, dx3, integral. cbn. ring. Qed.

(** Two layers of 6 and 4 m below the reference level, elevation 1 m, area 2. *)
Example C82_volume_example :
  mesh_volume 2 [tt] (fun _ => [tt]) (fun _ _ => 1)
    (fun _ i _ => match i with 0%nat => -10 | 1%nat => -4 | _ => 0 end) (fun _ => 10) (fun _ => 2) (fun _ => 1) = 22.
Proof.
  rewrite C82_mesh_volume; try reflexivity; [unfold integral; cbn; ring|intros _; exact (Rgt_not_eq 10 0 ltac:(lra))].
Qed.
End Example_.

(** The column of C47, filled through its open side, in two leap-frog steps. *)
Section Filled.
Let bath (_ : unit) : R := 10.
Let area (_ : unit) : R := 2.
(** facets: 0 surface, 1 bottom, 2 side *)
Let mesh1 (e : unit -> R) : mesh3 unit unit nat :=
  mk_mesh3 [tt] (fun _ => 2 * (e tt + 10)) [] [] (fun _ => 0) (fun _ => zero3)
    [0%nat] [1%nat] [2%nat]
    (fun n => match n with 2%nat => 5 | _ => 2 end)
    (fun n => match n with 0%nat => V3 0 0 1 | 1%nat => V3 0 0 (-1) | _ => V3 1 0 0 end) (fun n => n).
Let base (_ : unit -> R) (_ : unit) : sfield3 unit unit nat := const3 1.
Let fld (_ : unit -> R) (u : unit -> R) : sfield3 unit unit nat := const3 (u tt).
Let solve1 (e : unit -> R) (m : unit -> R) (_ : unit) : R := m tt / (2 * (e tt + 10)).
Let lim1 (_ : unit -> R) (u : unit -> R) : unit -> R := u.
(** water enters with 1 m/s and leaves upwards *)
Let uv1 : vfield3 unit unit nat := mk_vf3 (const3 (-1)) (const3 0) (const3 0).
Let w1 : sfield3 unit unit nat := mk_s3 (fun _ => 0) (fun _ => zero3) (fun _ _ => 0) (fun _ _ => zero3)
  (fun n => match n with 0%nat => 5/2 | _ => 0 end) (fun _ => zero3).
Let wm1 (e ws : R) : sfield3 unit unit nat := mk_s3 (fun _ => 0) (fun _ => V3 0 0 (ws / (e + 10))) (fun _ _ => 0) (fun _ _ => zero3)
  (fun n => match n with 0%nat => ws | _ => 0 end) (fun _ => zero3).
Let env1 (e ws : R) : tenv3 unit unit nat :=
  mk_tenv3 true true true (Some 1) (Some uv1) None (Some w1) (Some (wm1 e ws)) None None (fun _ _ => 1) (fun _ _ => 1) 1 1 None
    (fun n => match n with 2%nat => Some (mk_tb3 (Some (fun _ => 35)) XSym) | _ => None end) 0.
Let verts1 (_ : unit) := [tt].
Let lam1 (_ _ : unit) : R := 1.
Let zt (_ _ : unit) : R := 0.
Let zb (_ _ : unit) : R := -10.

Example C82_lf_constants_example : forall s,
  ageo s = (fun _ : unit => 0) -> asol s = (fun _ : unit => 35) -> aold s = (fun _ => 35) ->
  asol (lf_uniform_run mesh1 base fld solve1 lim1 1
     [mk_moved (env1 0 0) (env1 0 1) (fun _ => 0) (fun _ => 1);
      mk_moved (env1 1 0) (env1 1 3) (fun _ => 0) (fun _ => 4)] s) = (fun _ => 35).
Proof.
  intros s Hg Hs Ho.
  apply (C82_lf_run_constants verts1 lam1 zt zb bath area mesh1 base fld solve1 lim1 1 (fun n => Nat.eqb n 2) 35
           space1 ltac:(lra) ltac:(intros; unfold bath; lra)); [| |exact Hs|exact Ho]; rewrite Hg.
  - intros p _. unfold verts1, lam1, zt, zb, bath; rewrite (jac1 (fun _ => 0) p). lra.
  - cbn [lf_flow m_new m_K0 m_K1].
    assert (W1 : (fun n : unit => default_w_surf 1 1 0 1) = (fun _ => 1))
      by (apply functional_extensionality; intros _; unfold default_w_surf; field).
    assert (W2 : (fun n : unit => default_w_surf 1 1 1 4) = (fun _ => 3))
      by (apply functional_extensionality; intros _; unfold default_w_surf; field).
    rewrite W1, W2.
    split; [intros p _; unfold verts1, lam1, zt, zb, bath; rewrite (jac1 (fun _ => 1) p); lra|].
    split; [apply (stage1 (fun _ => 0) (fun _ => 0)); lra|].
    split; [apply (stage1 (fun _ => 0) (fun _ => 1)); lra|].
    split; [intros p _; unfold verts1, lam1, zt, zb, bath; rewrite (jac1 (fun _ => 4) p); lra|].
    split; [apply (stage1 (fun _ => 1) (fun _ => 0)); lra|].
    split; [apply (stage1 (fun _ => 1) (fun _ => 3)); lra|exact I].
Qed.
End Filled.

Print Assumptions C82_rk_conserved.
Print Assumptions C82_lf_conserved.
Print Assumptions C82_lf_run_constants.
Print Assumptions C82_rk_run_constants.
Print Assumptions C82_volume_2d.
Print Assumptions C82_mesh_inverted_refuted.
