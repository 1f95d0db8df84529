(** C93: the level from which elevations and depths are measured does not matter. *)
From Coq Require Import Reals List String Bool Arith Lia Lra FunctionalExtensionality.
From Verif Require Import Forms_Model Forms_Spec Forms_Proofs
  RK_Model RK_Spec RK_Proofs TimeInt_Model TimeInt_Spec TimeInt_Proofs P_RungeKutta P_TimeInt
  Galerkin_Model Galerkin_Proofs P_Galerkin WaveEnergy_Proofs Frame_Proofs P_Sym Datum_Spec Datum_Proofs TimeInt_Model.
Import ListNotations.
Open Scope R_scope.

(** ** The equations *)
Theorem C93_swe : forall {V F B} (c : R) (E : swe_env V F B) psi phi uv eta uv_old eta_old dh,
  surface_depth E -> (e_eta_dg E = true -> gauss_v (e_mesh E) psi) ->
  momentum_residual (datum_env c E) psi uv (lift_s c eta) uv_old (lift_s c eta_old)
  = momentum_residual E psi uv eta uv_old eta_old /\
  split_momentum_residual (datum_env c E) psi uv (lift_s c eta) (lift_s c eta_old)
  = split_momentum_residual E psi uv eta eta_old /\
  continuity_residual (datum_env c E) phi uv (lift_s c eta) uv_old (lift_s c eta_old) dh
  = continuity_residual E phi uv eta uv_old eta_old dh.
Proof.
  intros V F B c E psi phi uv eta uv_old eta_old dh HE HG. split; [apply datum_momentum; assumption|]. split.
  - unfold split_momentum_residual. rewrite (datum_pressure c E HE _ _ _ _ HG). reflexivity.
  - apply datum_continuity. exact HE.
Qed.

Theorem C93_tracer : forall {V F B} (c : R) (E : swe_env V F B) T phi q uv elev gext, surface_depth E ->
  let E' := datum_env c E in let T' := datum_tenv c T in
  tracer_advection E' T' phi q uv (lift_s c elev) = tracer_advection E T phi q uv elev /\
  cons_advection E' T' phi q uv (lift_s c elev) = cons_advection E T phi q uv elev /\
  tracer_diffusion E' T' phi q uv (lift_s c elev) gext = tracer_diffusion E T phi q uv elev gext /\
  tracer_source E' T' phi = tracer_source E T phi /\
  cons_source E' T' phi (lift_s c elev) = cons_source E T phi elev.
Proof.
  intros V F B c E T phi q uv elev gext HE E' T'.
  split; [apply datum_tadv, HE|]. split; [apply datum_cons, HE|]. split; [apply datum_tdiff, HE|].
  split; [reflexivity|apply datum_csource, HE].
Qed.

(** Tracer runs: the coefficients are the same after any number of steps. *)
Definition datum_case {V F B} (c : R) (k : @tcase V F B) : tcase :=
  mk_tcase (datum_env c (tc_E k)) (datum_tenv c (tc_T k)) (tc_uv k) (lift_s c (tc_elev k)) (tc_gext k).
Theorem C93_tracer_run : forall {V F B Val Bd} (c : R) (W : @tspace V F B) (M : mesh V F B) conservative
  (case : (string -> option Val) -> (string -> option Val) -> Bd -> tcase)
  keys kind solve dt uf theta semi ts (s : @tst nat Val Bd),
  (forall f fo b, surface_depth (tc_E (case f fo b))) ->
  fold_left (fun s t => cn_advance keys kind (TRes W (fun f fo b => datum_case c (case f fo b)) conservative)
                          (tracer_mass W M) solve dt uf theta semi t s) ts s
  = fold_left (fun s t => cn_advance keys kind (TRes W case conservative) (tracer_mass W M) solve dt uf theta semi t s) ts s.
Proof.
  intros V F B Val Bd c W M cons case keys kind solve dt uf theta semi ts s HE.
  assert (HR : TRes W (fun f fo b => datum_case c (case f fo b)) cons = TRes W case cons).
  { unfold TRes. repeat (apply functional_extensionality; intro). unfold tvec, tracer_vector.
    cbn [datum_case tc_E tc_T tc_uv tc_elev tc_gext].
    match goal with |- context [datum_env c (tc_E ?k)] => pose proof (fun phi q => C93_tracer c (tc_E k) (tc_T k) phi q (tc_uv k) (tc_elev k) (tc_gext k) (HE _ _ _)) as Q end.
    cbv zeta in Q. destruct (Nat.ltb x4 (n_c W)); [|reflexivity].
    destruct (Q (chi W x4) (tracer_of W x)) as (Q1 & Q2 & Q3 & Q4 & Q5). rewrite Q3. destruct cons; [rewrite Q2, Q5|rewrite Q1, Q4]; reflexivity. }
  rewrite HR. reflexivity.
Qed.

(** The depth of the program depends on bed and surface as asked, with and without
    wetting and drying, if the equations are nonlinear. *)
Theorem C93_depth : forall {V} (alpha : option (V -> R)) (bath : V -> R) p h c,
  wd_depth true alpha (fun p => bath p - c) p (h + c) = wd_depth true alpha bath p h /\
  wd_displacement alpha (fun p => bath p - c) p (h + c) = wd_displacement alpha bath p h.
Proof.
  intros V alpha bath p h c.
  assert (H : wd_displacement alpha (fun p => bath p - c) p (h + c) = wd_displacement alpha bath p h).
  { unfold wd_displacement. replace (bath p - c + (h + c)) with (bath p + h) by ring. reflexivity. }
  split; [|exact H]. unfold wd_depth. rewrite H. ring.
Qed.

(** The linear equations take the depth from the bathymetry alone, so that the level is
    the mean surface and cannot be chosen. *)
Theorem C93_linear_refuted : exists (bath : unit -> R) h c,
  wd_depth false None (fun p => bath p - c) tt (h + c) <> wd_depth false None bath tt h.
Proof. exists (fun _ => 10), 0, 1. unfold wd_depth. lra. Qed.

(** ** Runs *)
Section C93.
Context {V F B : Type}.
Variable c : R.
Variable W : @space V F B.
Variable M : mesh V F B.
(** The constant function 1 is in the elevation space. *)
Variable one : nat -> R.
Hypothesis Hone : comb (n_eta W) one (phi W) = const_s 1.
Variables dh dh' : (dof -> R) -> (dof -> R) -> V -> R.
(** div(H u), used by continuous velocities only, is that of the same water *)
Hypothesis Hdh : forall u u' v v', same_water c W u u' -> same_water c W v v' -> dh' u' v' = dh u v.
(** The problem can be measured from any level: the depth is that between bed and surface,
    and the divergence theorem holds for the velocity test functions. *)
Definition any_level (E : swe_env V F B) : Prop :=
  surface_depth E /\ (e_eta_dg E = true -> forall j, (j < n_uv W)%nat -> gauss_v (e_mesh E) (psi W j)).

(** the state [u], measured from a level lower by [k] *)
Definition level_dof (k : R) (rest u : dof -> R) (x : dof) : R :=
  match x with
  | UV j => if Nat.ltb j (n_uv W) then u x else rest x
  | ETA i => if Nat.ltb i (n_eta W) then u x + k * one i else rest x
  end.
Lemma level_uv : forall k rest u, uv_of W (level_dof k rest u) = uv_of W u.
Proof.
  intros k rest u. unfold uv_of. f_equal; apply comb_ext; intros j Hj; cbn [level_dof]; rewrite (proj2 (Nat.ltb_lt _ _) Hj); reflexivity.
Qed.
Lemma level_eta : forall k rest u, eta_of W (level_dof k rest u) = lift_s k (eta_of W u).
Proof.
  intros k rest u. transitivity (comb (n_eta W) (fun i => u (ETA i) + k * one i) (phi W)).
  - apply comb_ext. intros i Hi. cbn [level_dof]. rewrite (proj2 (Nat.ltb_lt _ _) Hi). reflexivity.
  - rewrite comb_plus, Hone. apply sfield_ext; intros; cbn [add_s scale_s const_s lift_s s_v s_gv s_f s_gf s_b s_gb]; try (unfold eta_of; ring);
    apply pair_ext; unfold eta_of, add2, scal2; cbn [fst snd]; ring.
Qed.
Lemma level_water : forall rest u, same_water c W u (level_dof c rest u).
Proof. intros rest u. split; [apply level_uv|apply level_eta]. Qed.
Lemma level_back : forall rest u', same_water c W (level_dof (- c) rest u') u'.
Proof.
  intros rest u'. split; [symmetry; apply level_uv|]. rewrite level_eta.
  apply sfield_ext; intros; cbn [lift_s s_v s_gv s_f s_gf s_b s_gb]; try ring; reflexivity.
Qed.

(** *** Assembled systems *)
Theorem C93_assembled : forall E u u' v v' x, any_level E -> same_water c W u u' -> same_water c W v v' ->
  swe_vector W (datum_env c E) dh' u' v' x = swe_vector W E dh u v x.
Proof.
  intros E u u' v v' x (HE & HG) Hu Hv. pose proof (Hdh _ _ _ _ Hu Hv) as HD. destruct Hu as (U1 & U2), Hv as (V1 & V2).
  unfold swe_vector. rewrite U1, U2, V1, V2, HD. destruct x as [j|i].
  - destruct (Nat.ltb j (n_uv W)) eqn:L; [|reflexivity]. rewrite datum_momentum; [reflexivity|exact HE|].
    intro K. apply (HG K). apply Nat.ltb_lt, L.
  - destruct (Nat.ltb i (n_eta W)); [|reflexivity]. apply datum_continuity, HE.
Qed.
Definition inside_space (x : dof) : Prop := match x with UV j => (j < n_uv W)%nat | ETA i => (i < n_eta W)%nat end.
Lemma mass_change : forall disp disp' u u' v v' x, (forall p h, disp' p (h + c) = disp p h) ->
  same_water c W u u' -> same_water c W v v' -> inside_space x ->
  swe_mass W M disp' u' x - swe_mass W M disp' v' x = swe_mass W M disp u x - swe_mass W M disp v x.
Proof.
  intros disp disp' u u' v v' x Hd (U1 & U2) (V1 & V2) Hx. unfold swe_mass. rewrite U1, U2, V1, V2. destruct x as [j|i]; cbn [inside_space] in Hx.
  - rewrite (proj2 (Nat.ltb_lt _ _) Hx). reflexivity.
  - rewrite (proj2 (Nat.ltb_lt _ _) Hx).
    assert (A : forall q : sfield V F B, dx M (fun p => s_v (lift_s c q) p * s_v (phi W i) p)
                  = dx M (fun p => s_v q p * s_v (phi W i) p) + c * dx M (fun p => s_v (phi W i) p)).
    { intro q. apply integral_lin. intros p _. cbn [lift_s s_v]. ring. }
    assert (D : forall q : sfield V F B, dx M (fun p => disp' p (s_v (lift_s c q) p) * s_v (phi W i) p)
                  = dx M (fun p => disp p (s_v q p) * s_v (phi W i) p)).
    { intro q. apply integral_ext. intros p _. cbn [lift_s s_v]. rewrite Hd. reflexivity. }
    rewrite !A, !D. ring.
Qed.

(** *** Implicit steps *)
Section Theta.
Context {Val Bd : Type}.
Variable Env : (string -> option Val) -> (string -> option Val) -> Bd -> swe_env V F B.
Variables disp disp' : V -> R -> R.
Hypothesis Hdisp : forall p h, disp' p (h + c) = disp p h.
Variable keys : list string.
Variable kind : string -> ckind.
Variable solve : ((dof -> R) -> dof -> R) -> (dof -> R) -> dof -> R.
Variable dt : R.
Variable uf : option (@forcing Val Bd).
Variable theta : R.
Variable semi : bool.
Notation step := (cn_advance keys kind (Res W dh Env) (swe_mass W M disp) solve dt uf theta semi).
Notation step' := (cn_advance keys kind (Res W dh' (fun f fo b => datum_env c (Env f fo b))) (swe_mass W M disp') solve dt uf theta semi).
Definition level_data (k : @coefs Val Bd) : Prop :=
  any_level (Env (view kind k) (view kind k) (oth k)) /\ any_level (Env (view_old kind k) (view_old kind k) (oth k)).
Definition theta_solves (k : @coefs Val Bd) (u0 u : dof -> R) : Prop :=
  theta_step (swe_mass W M disp)
    (fun v => Res W dh Env v (if semi then u0 else v) (view kind k) (view kind k) (oth k))
    (fun v => Res W dh Env v v (view_old kind k) (view_old kind k) (oth k)) dt theta u0 u.
Definition theta_solves' (k : @coefs Val Bd) (u0 u : dof -> R) : Prop :=
  theta_step (swe_mass W M disp')
    (fun v => Res W dh' (fun f fo b => datum_env c (Env f fo b)) v (if semi then u0 else v) (view kind k) (view kind k) (oth k))
    (fun v => Res W dh' (fun f fo b => datum_env c (Env f fo b)) v v (view_old kind k) (view_old kind k) (oth k)) dt theta u0 u.
(** The system of a time step has a solution, and only one. *)
Definition one_solution (k : @coefs Val Bd) (u0 : dof -> R) : Prop :=
  (exists u, theta_solves k u0 u) /\
  forall u v, theta_solves k u0 u -> theta_solves k u0 v -> uv_of W u = uv_of W v /\ eta_of W u = eta_of W v.

Lemma rows_equal : forall k u0 u0' u u', level_data k -> same_water c W u0 u0' -> same_water c W u u' ->
  forall x, inside_space x ->
  (swe_mass W M disp u x - swe_mass W M disp u0 x
   = dt * (theta * Res W dh Env u (if semi then u0 else u) (view kind k) (view kind k) (oth k) x
           + (1 - theta) * Res W dh Env u0 u0 (view_old kind k) (view_old kind k) (oth k) x)) <->
  (swe_mass W M disp' u' x - swe_mass W M disp' u0' x
   = dt * (theta * Res W dh' (fun f fo b => datum_env c (Env f fo b)) u' (if semi then u0' else u') (view kind k) (view kind k) (oth k) x
           + (1 - theta) * Res W dh' (fun f fo b => datum_env c (Env f fo b)) u0' u0' (view_old kind k) (view_old kind k) (oth k) x)).
Proof.
  intros k u0 u0' u u' (H1 & H2) H0 Hu x Hx. unfold Res.
  rewrite (mass_change disp disp' u u' u0 u0' x Hdisp Hu H0 Hx).
  rewrite (C93_assembled _ u0 u0' u0 u0' x H2 H0 H0).
  rewrite (C93_assembled _ u u' (if semi then u0 else u) (if semi then u0' else u') x H1 Hu); [tauto|destruct semi; assumption].
Qed.
Lemma outside : forall (E : swe_env V F B) d u v x, ~ inside_space x -> swe_vector W E d u v x = 0.
Proof.
  intros E d u v [j|i] Hx; cbn [inside_space swe_vector] in *.
  - destruct (Nat.ltb j (n_uv W)) eqn:L; [|reflexivity]. apply Nat.ltb_lt in L. contradiction.
  - destruct (Nat.ltb i (n_eta W)) eqn:L; [|reflexivity]. apply Nat.ltb_lt in L. contradiction.
Qed.
Lemma outside_mass : forall d u x, ~ inside_space x -> swe_mass W M d u x = u x.
Proof.
  intros d u [j|i] Hx; cbn [inside_space swe_mass] in *.
  - destruct (Nat.ltb j (n_uv W)) eqn:L; [|reflexivity]. apply Nat.ltb_lt in L. contradiction.
  - destruct (Nat.ltb i (n_eta W)) eqn:L; [|reflexivity]. apply Nat.ltb_lt in L. contradiction.
Qed.
Lemma outside_level : forall k rest u x, ~ inside_space x -> level_dof k rest u x = rest x.
Proof.
  intros k rest u [j|i] Hx; cbn [inside_space level_dof] in *.
  - destruct (Nat.ltb j (n_uv W)) eqn:L; [|reflexivity]. apply Nat.ltb_lt in L. contradiction.
  - destruct (Nat.ltb i (n_eta W)) eqn:L; [|reflexivity]. apply Nat.ltb_lt in L. contradiction.
Qed.
Lemma inside_space_dec : forall x, inside_space x \/ ~ inside_space x.
Proof. intros [j|i]; cbn [inside_space]; [destruct (Nat.lt_ge_cases j (n_uv W))|destruct (Nat.lt_ge_cases i (n_eta W))]; [left|right|left|right]; lia. Qed.
Lemma solves_forth : forall k u0 u0' u, level_data k -> same_water c W u0 u0' -> theta_solves k u0 u ->
  theta_solves' k u0' (level_dof c u0' u).
Proof.
  intros k u0 u0' u Hk H0 Hu x. destruct (inside_space_dec x) as [Hx|Hx].
  - apply (rows_equal k u0 u0' u _ Hk H0 (level_water u0' u) x Hx). apply Hu.
  - unfold Res. rewrite !outside, !outside_mass, outside_level by exact Hx. ring.
Qed.
Lemma solves_back : forall k u0 u0' u', level_data k -> same_water c W u0 u0' -> theta_solves' k u0' u' ->
  theta_solves k u0 (level_dof (- c) u0 u').
Proof.
  intros k u0 u0' u' Hk H0 Hu x. destruct (inside_space_dec x) as [Hx|Hx].
  - apply (rows_equal k u0 u0' _ u' Hk H0 (level_back u0 u') x Hx). apply Hu.
  - unfold Res. rewrite !outside, !outside_mass, outside_level by exact Hx. ring.
Qed.

(** Measured from another level, a run gives the same velocities and the same surface after
    any number of Crank-Nicolson steps, nonlinear or linearised, with and without wetting
    and drying. *)
Theorem C93_swe_run : forall (good : @coefs Val Bd -> Prop) ts (s s' : @tst dof Val Bd),
  (forall k, good k -> level_data k) ->
  (forall t k, good k -> good (force_co uf t k)) -> (forall k, good k -> good (update_fields_old keys kind k)) ->
  exact_solver solve -> (forall k u, good k -> one_solution k u) ->
  good (tco s) -> tco s' = tco s -> same_water c W (tsol s) (tsol s') ->
  same_water c W (tsol (fold_left (fun s t => step t s) ts s)) (tsol (fold_left (fun s t => step' t s) ts s')).
Proof.
  intros good ts s s' Hg Hf Hu Hs Hd. revert s s'. induction ts as [|t ts IH]; intros s s' Hc Hco H0; cbn [fold_left]; [exact H0|].
  pose proof (Hf (t + dt) _ Hc) as Hc'. destruct (Hd _ (tsol s) Hc') as (Hex & Huq).
  destruct (cn_advance_spec keys kind (Res W dh Env) (swe_mass W M disp) solve dt uf theta semi t s Hs Hex) as [Q Q2].
  pose proof (cn_advance_spec keys kind (Res W dh' (fun f fo b => datum_env c (Env f fo b))) (swe_mass W M disp') solve dt uf theta semi t s' Hs) as N.
  rewrite Hco in N. destruct N as [N N2].
  { destruct Hex as (u & Hx). exists (level_dof c (tsol s') u). exact (solves_forth _ _ _ _ (Hg _ Hc') H0 Hx). }
  apply IH; [rewrite Q2; apply Hu, Hc'|rewrite Q2, N2; reflexivity|].
  pose proof (solves_back _ _ _ _ (Hg _ Hc') H0 N) as Nb. destruct (Huq _ _ Q Nb) as (E1 & E2).
  destruct (level_back (tsol s) (tsol (step' t s'))) as (B1 & B2). split.
  - rewrite E1. exact B1.
  - rewrite E2. exact B2.
Qed.
End Theta.

(** *** Explicit steps *)
Lemma water_plus : forall u u' k v v', same_water c W u u' -> uv_of W v' = uv_of W v -> eta_of W v' = eta_of W v ->
  same_water c W (plus_k u k v) (plus_k u' k v').
Proof.
  intros u u' k v v' (U1 & U2) V1 V2. split.
  - rewrite !uv_plus, U1, V1. reflexivity.
  - rewrite !eta_plus, U2, V2. apply sfield_ext; intros; cbn [add_s scale_s lift_s s_v s_gv s_f s_gf s_b s_gb]; try ring; reflexivity.
Qed.
Lemma along_S : forall (u : dof -> R) h n b k, along u h (S n) b k = plus_k (along u h n b k) (h * b n) (k n).
Proof.
  intros u h n b k. apply functional_extensionality; intro x. unfold plus_k, along, Sum. rewrite seq_S, map_app, fold_right_app. cbn [map fold_right plus].
  assert (G : forall l (a : R), fold_right Rplus a l = fold_right Rplus 0 l + a).
  { induction l as [|y l G]; intro a; cbn [fold_right]; [ring|rewrite G; ring]. }
  rewrite (G _ (_ + 0)). ring.
Qed.
Lemma water_along : forall n u u' h (b : nat -> R) k k', same_water c W u u' ->
  (forall i, (i < n)%nat -> uv_of W (k' i) = uv_of W (k i) /\ eta_of W (k' i) = eta_of W (k i)) ->
  same_water c W (along u h n b k) (along u' h n b k').
Proof.
  intros n u u' h b k k' Hu Hk. induction n as [|n IH].
  - replace (along u h 0 b k) with u by (apply functional_extensionality; intro x; unfold along, Sum; cbn; ring).
    replace (along u' h 0 b k') with u' by (apply functional_extensionality; intro x; unfold along, Sum; cbn; ring). exact Hu.
  - rewrite !along_S. apply water_plus; [apply IH; intros i Hi; apply Hk; lia| |]; apply (Hk n); lia.
Qed.

Theorem C93_explicit_run : forall {En : Type} (EnvR : En -> swe_env V F B) (Fx Fx' : En -> (dof -> R) -> dof -> R)
  (T : tableau) dte ufe ts (s s' : @st dof En),
  (forall e, any_level (EnvR e)) ->
  (forall e u x, swe_mass W M (fun _ _ => 0) (Fx e u) x = swe_vector W (EnvR e) dh u u x) ->
  (forall e u x, swe_mass W M (fun _ _ => 0) (Fx' e u) x = swe_vector W (datum_env c (EnvR e)) dh' u u x) ->
  (forall k k', (forall x, swe_mass W M (fun _ _ => 0) k x = swe_mass W M (fun _ _ => 0) k' x) ->
     uv_of W k = uv_of W k' /\ eta_of W k = eta_of W k') ->
  dte <> 0 -> env s' = env s -> (ini s = true -> sol_old s = sol s) -> (ini s' = true -> sol_old s' = sol s') ->
  same_water c W (sol s) (sol s') ->
  same_water c W (sol (fold_left (fun s t => erk_advance T Fx true dte ufe t s) ts s))
                 (sol (fold_left (fun s t => erk_advance T Fx' true dte ufe t s) ts s')).
Proof.
  intros En EnvR Fx Fx' T dte ufe ts s s' HE HF HF' Huq Hd. revert s s'.
  assert (Hten : forall e u u', same_water c W u u' -> uv_of W (Fx' e u') = uv_of W (Fx e u) /\ eta_of W (Fx' e u') = eta_of W (Fx e u)).
  { intros e u u' Hu. apply Huq. intro x. rewrite HF, HF'. apply C93_assembled; [apply HE|exact Hu|exact Hu]. }
  induction ts as [|t ts IH]; intros s s' He Hi Hi' Hs; cbn [fold_left]; [exact Hs|].
  destruct (erk_advance_spec T Fx dte ufe t s Hd) as ((k & Hk & Hu) & HEnv & Ho & _).
  destruct (erk_advance_spec T Fx' dte ufe t s' Hd) as ((k' & Hk' & Hu') & HEnv' & Ho' & _).
  apply IH; [rewrite HEnv, HEnv', He; reflexivity|intros _; exact Ho|intros _; exact Ho'|]. rewrite Hu, Hu'.
  assert (H0 : same_water c W (erk_start s) (erk_start s')).
  { unfold erk_start. destruct (ini s) eqn:I1, (ini s') eqn:I2; rewrite ?Hi, ?Hi' by reflexivity; exact Hs. }
  assert (HK : forall n i, (i < n)%nat -> (i < ns T)%nat -> uv_of W (k' i) = uv_of W (k i) /\ eta_of W (k' i) = eta_of W (k i)).
  { induction n as [|n IHn]; intros i H1 H2; [lia|]. rewrite (Hk i H2), (Hk' i H2), He. apply Hten.
    apply water_along; [exact H0|]. intros j Hj. apply IHn; lia. }
  apply water_along; [exact H0|]. intros i Hin. apply (HK (S i)); [lia|exact Hin].
Qed.
End C93.

(* ------------------------------------------------------------------ *)
(** * Example: the rotating channel of P_Sym.v, measured from another level *)

Lemma channel_any_level : any_level channel_space channel.
Proof.
  split; [intros b h k; cbn [channel e_depth]; ring|]. intros _ j Hj. cbn [channel_space n_uv] in Hj.
  destruct j as [|[|[|[|j]]]]; [| | | |lia];
  unfold gauss_v, gauss, dx, dS, ds, integral, divv, unb, dot2, vf, vb, normal, end_normal, unit_at;
  cbn -[Rplus Rmult Rminus Rdiv Ropp IZR]; lra.
Qed.
Lemma channel_one : comb (n_eta channel_space) (fun _ => 1) (phi channel_space) = const_s 1.
Proof.
  apply sfield_ext; intros; cbn -[Rplus Rmult Rminus Rdiv Ropp IZR];
  repeat match goal with x : bool |- _ => destruct x end; unfold unit_at, add2, scal2; cbn -[Rplus Rmult Rminus Rdiv Ropp IZR];
  try (apply pair_ext; cbn -[Rplus Rmult Rminus Rdiv Ropp IZR]); lra.
Qed.
(** the state [meeting] of P_Sym.v, measured from a level three metres lower *)
Definition meeting_3 (x : dof) : R :=
  match x with UV 0 => 1 | UV 1 => -1 | UV 2 => 3 | UV 3 => -3 | ETA 0 => 7/2 | ETA 1 => 7/2 | _ => 0 end.
Lemma meeting_same : same_water 3 channel_space meeting meeting_3.
Proof.
  split; [reflexivity|]. rewrite <- (level_eta channel_space (fun _ => 1) channel_one 3 meeting meeting).
  unfold eta_of. apply comb_ext. intros [|[|i]] Hi; cbn [channel_space n_eta] in Hi; cbn -[Rplus Rmult Rminus Rdiv Ropp IZR]; try lia; lra.
Qed.
Example C93_example : forall solve uf dt ts (s s' : @tst dof unit unit), exact_solver solve ->
  tsol s = meeting -> tsol s' = meeting_3 -> tco s' = tco s ->
  let run E s := fold_left (fun s t => cn_advance [] (fun _ => KExpr) (Res channel_space (fun _ _ _ => 0) (fun _ _ _ => E))
                   (swe_mass channel_space channel_mesh (fun _ _ => 0)) solve dt uf 0 true t s) ts s in
  uv_of channel_space (tsol (run (datum_env 3 channel) s')) = uv_of channel_space (tsol (run channel s)) /\
  eta_of channel_space (tsol (run (datum_env 3 channel) s')) = lift_s 3 (eta_of channel_space (tsol (run channel s))) /\
  e_bath_v (datum_env 3 channel) false = 7 /\ s_v (eta_of channel_space meeting_3) true = 7 / 2.
Proof.
  intros solve uf dt ts s s' Hs E0 E0' Hco run.
  assert (R : same_water 3 channel_space (tsol (run channel s)) (tsol (run (datum_env 3 channel) s'))).
  { subst run. cbv beta.
    refine (C93_swe_run 3 channel_space channel_mesh (fun _ => 1) channel_one (fun _ _ _ => 0) (fun _ _ _ => 0) (fun _ _ _ _ _ _ => eq_refl)
              (fun _ _ _ => channel) (fun _ _ => 0) (fun _ _ => 0) (fun _ _ => eq_refl) [] (fun _ => KExpr) solve dt uf 0 true
              (fun _ => True) ts s s' (fun k _ => Logic.conj channel_any_level channel_any_level) (fun _ _ _ => I) (fun _ _ => I) Hs _ I Hco _).
    - intros k u _. split.
      + exists (fun x => u x + dt * Res channel_space (fun _ _ _ => 0) (fun _ _ _ => channel) u u (view_old (fun _ => KExpr) k)
                  (view_old (fun _ => KExpr) k) (oth k) x). intro x. rewrite !channel_mass. ring.
      + intros a b Ha Hb. assert (a = b) as ->; [|split; reflexivity].
        apply functional_extensionality. intro x. specialize (Ha x). specialize (Hb x). rewrite !channel_mass in Ha, Hb. lra.
    - rewrite E0, E0'. exact meeting_same. }
  destruct R as (R1 & R2). split; [exact R1|]. split; [exact R2|]. split; [cbn; lra|].
  unfold eta_of, meeting_3, unit_at. cbn -[Rplus Rmult Rminus Rdiv Ropp Rinv IZR]. lra.
Qed.
(** A tracer in the same channel. *)
Example C93_tracer_example : forall solve uf dt ts (s : @tst nat unit unit) (conservative : bool),
  let run k := fold_left (fun s t => cn_advance [] (fun _ => KExpr) (TRes channel_tspace (fun _ _ _ => k) conservative)
                 (tracer_mass channel_tspace channel_mesh) solve dt uf (1 / 2) true t s) ts s in
  run (datum_case 3 channel_case) = run channel_case.
Proof.
  intros solve uf dt ts s conservative run. subst run. cbv beta.
  exact (C93_tracer_run 3 channel_tspace channel_mesh conservative (fun _ _ _ => channel_case) [] (fun _ => KExpr) solve dt uf (1 / 2) true ts s
           (fun _ _ _ => proj1 channel_any_level)).
Qed.
(** The same with any Runge-Kutta method. *)
Example C93_explicit_example : forall (T : tableau) dte ts (s s' : @st dof unit), dte <> 0 ->
  (ini s = true -> sol_old s = sol s) -> (ini s' = true -> sol_old s' = sol s') -> env s' = env s ->
  sol s = meeting -> sol s' = meeting_3 ->
  let run E s := fold_left (fun s t => erk_advance T (fun _ u => swe_vector channel_space E (fun _ _ _ => 0) u u) true dte None t s) ts s in
  same_water 3 channel_space (sol (run channel s)) (sol (run (datum_env 3 channel) s')).
Proof.
  intros T dte ts s s' Hd Hi Hi' He E0 E0' run.
  subst run. cbv beta.
  refine (C93_explicit_run 3 channel_space channel_mesh (fun _ _ _ => 0) (fun _ _ _ => 0) (fun _ _ _ _ _ _ => eq_refl)
            (fun _ : unit => channel) (fun _ u => swe_vector channel_space channel (fun _ _ _ => 0) u u)
            (fun _ u => swe_vector channel_space (datum_env 3 channel) (fun _ _ _ => 0) u u) T dte None ts s s'
            (fun _ => channel_any_level) _ _ _ Hd He Hi Hi' _).
  - intros e u x. apply channel_mass.
  - intros e u x. apply channel_mass.
  - intros k k' H. assert (k = k') as ->; [|split; reflexivity].
    apply functional_extensionality. intro x. specialize (H x). rewrite !channel_mass in H. exact H.
  - rewrite E0, E0'. exact meeting_same.
Qed.

Print Assumptions C93_swe.
Print Assumptions C93_tracer.
Print Assumptions C93_tracer_run.
Print Assumptions C93_depth.
Print Assumptions C93_linear_refuted.
Print Assumptions C93_assembled.
Print Assumptions C93_swe_run.
Print Assumptions C93_explicit_run.
