(** C95: lemmas about separate basins. *)
From Coq Require Import Reals List Bool Lra Lia FunctionalExtensionality.
From Verif Require Import Forms_Model Forms_Spec Forms_Proofs Galerkin_Model Galerkin_Proofs WaveEnergy_Proofs Frame_Proofs Basin_Spec.
Import ListNotations.
Open Scope R_scope.

Lemma integral_part {X} : forall (l : list X) (part : X -> bool) w g g1,
  (forall x, part x = true -> g1 x = g x) -> (forall x, part x = false -> g x = 0) ->
  integral (filter part l) w g1 = integral l w g.
Proof.
  intros l part w g g1 H1 H0. unfold integral. induction l as [|x l IH]; [reflexivity|]. cbn [filter fold_right].
  destruct (part x) eqn:Px; cbn [fold_right].
  - rewrite IH, H1 by exact Px. reflexivity.
  - rewrite IH, H0 by exact Px. ring.
Qed.

Section Basin.
Context {V F B : Type}.
Variable P : basin V F B.
Variable E : swe_env V F B.
Notation E1 := (env_of P E).
Notation M := (e_mesh E).
Notation cs := (cut_s P).
Notation cv := (cut_v P).
Implicit Types (psi uv uv_old : vfield V F B) (phi eta eta_old : sfield V F B).

Lemma part_dx : forall g g1, (forall x, in_v P x = true -> g1 x = g x) -> (forall x, in_v P x = false -> g x = 0) ->
  dx (mesh_of P M) g1 = dx M g.
Proof. intros. apply integral_part; assumption. Qed.
Lemma part_dS : forall g g1, (forall x, in_f P x = true -> g1 x = g x) -> (forall x, in_f P x = false -> g x = 0) ->
  dS (mesh_of P M) g1 = dS M g.
Proof. intros. apply integral_part; assumption. Qed.
Lemma part_ds : forall g g1, (forall x, in_b P x = true -> g1 x = g x) -> (forall x, in_b P x = false -> g x = 0) ->
  ds (mesh_of P M) g1 = ds M g.
Proof. intros. apply integral_part; assumption. Qed.

(** evaluation in and outside of the basin *)
Ltac look := cbn [env_of mesh_of e_mesh e_g e_rho0 e_depth e_bath_v e_bath_f e_bath_b e_len e_bnd e_drag_b e_lax e_nu e_grad_div e_grad_depth
  e_sigma_f e_sigma_b e_grad_h e_coriolis e_kappa e_smoother m_nf m_nb m_marker m_wv m_wf m_wb
  hv hf hb eta_ext uv_ext vv vf vb divv unb jump_n jump_vn avg_v grad_v grad_f grad_b tensor_jump
  cut_v v_x v_y cut_s s_v s_gv s_f s_gf s_b s_gb fst snd].
Ltac open := unfold hu_flux_b, delta_uv, uv_ext, hv, hf, hb, eta_ext, sigma_max, unb, jump_n, jump_vn, tensor_jump, avg_v, divv, stress_of, normal,
  grad_v, grad_f, grad_b, avg_t, avg, jump, vv, vf, vb, eta_ext, hb; look.
Ltac inside := let x := fresh in let H := fresh in intros x H; open; rewrite !H; reflexivity.
Ltac outside := let x := fresh in let H := fresh in intros x H; open; rewrite !H; look;
  unfold dot2, add2, sub2, scal2, inner_t, outer, scal_t, add_t, sym_t, vec_t; look; unfold Rdiv; try ring.
Ltac split_sum := repeat match goal with
  | |- - _ = - _ => apply f_equal
  | |- _ + _ = _ + _ => apply f_equal2
  | |- _ - _ = _ - _ => apply f_equal2
  | |- ?k * _ = ?k * _ => apply f_equal
  | |- 0 = 0 => reflexivity
  | |- dx _ _ = _ => apply part_dx; [try inside|try outside]
  | |- dS _ _ = _ => apply part_dS; [try inside|try outside]
  | |- ds _ _ = _ => apply part_ds
  end.
Ltac mesh := change (e_mesh E1) with (mesh_of P M).
Ltac bnd := let b := fresh "b" in let H := fresh "H" in intros b H; cbn [env_of mesh_of e_mesh e_bnd e_drag_b m_marker];
  (destruct (e_bnd E (m_marker M b)) as [|e]); cbv zeta; open; rewrite ?H; look; try reflexivity;
  unfold dot2, add2, sub2, scal2, inner_t, outer, scal_t, add_t, sym_t; look; unfold Rdiv; try ring.

Lemma part_pressure : forall psi uv eta eta_old,
  pressure_gradient E1 (cv psi) (cv uv) (cs eta) (cs eta_old) = pressure_gradient E (cv psi) uv eta eta_old.
Proof.
  intros psi uv eta eta_old. unfold pressure_gradient. mesh. change (e_eta_dg E1) with (e_eta_dg E). change (e_g E1) with (e_g E).
  destruct (e_eta_dg E); split_sum; bnd.
Qed.
Lemma part_hu_div : forall phi uv eta uv_old eta_old dh dh1, (forall p, in_v P p = true -> dh1 p = dh p) ->
  hu_div E1 (cs phi) (cv uv) (cs eta) (cv uv_old) (cs eta_old) dh1 = hu_div E (cs phi) uv eta uv_old eta_old dh.
Proof.
  intros phi uv eta uv_old eta_old dh dh1 Hd. unfold hu_div. mesh. change (e_eta_dg E1) with (e_eta_dg E). change (e_g E1) with (e_g E).
  change (e_u_jump E1) with (e_u_jump E).
  destruct (e_u_jump E); [destruct (e_eta_dg E)|]; split_sum; try bnd.
  - intros p H. rewrite (Hd p H). cbn [cut_s s_v]. rewrite H. reflexivity.
  - destruct (ex_un e); ring.
Qed.
Lemma part_advection : forall psi uv eta uv_old eta_old,
  advection E1 (cv psi) (cv uv) (cs eta) (cv uv_old) (cs eta_old) = advection E (cv psi) uv eta uv_old eta_old.
Proof.
  intros psi uv eta uv_old eta_old. unfold advection. mesh. change (e_nonlinear E1) with (e_nonlinear E). change (e_g E1) with (e_g E).
  change (e_u_jump E1) with (e_u_jump E). change (e_lax E1) with (e_lax E). destruct (e_nonlinear E); [|reflexivity].
  destruct (e_u_jump E); [destruct (e_lax E)|]; split_sum; try bnd.
Qed.
Lemma part_viscosity : forall psi uv eta eta_old,
  viscosity E1 (cv psi) (cv uv) (cs eta) (cs eta_old) = viscosity E (cv psi) uv eta eta_old.
Proof.
  intros psi uv eta eta_old. unfold viscosity. mesh. change (e_nu E1) with (e_nu E).
  change (e_u_jump E1) with (e_u_jump E). change (e_grad_depth E1) with (e_grad_depth E). destruct (e_nu E) as [nu|]; [|reflexivity].
  destruct (e_u_jump E), (e_grad_depth E); split_sum; try bnd;
  repeat match goal with
         | |- context [match ex_un ?e with _ => _ end] => destruct (ex_un e)
         | |- context [match ex_uv ?e with _ => _ end] => destruct (ex_uv e)
         end; try reflexivity;
  destruct (e_grad_div E); unfold dot2, add2, sub2, scal2, inner_t, outer, scal_t, add_t, sym_t, vec_t; cbn [fst snd]; try ring.
Qed.
Lemma part_drag : forall psi uv uv_old eta_old,
  quadratic_drag E1 (cv psi) (cv uv) (cv uv_old) (cs eta_old) = quadratic_drag E (cv psi) uv uv_old eta_old.
Proof.
  intros psi uv uv_old eta_old. unfold quadratic_drag, drag_coefficient.
  change (e_manning E1) with (e_manning E). change (e_quad E1) with (e_quad E). change (e_nikuradse E1) with (e_nikuradse E).
  change (e_g E1) with (e_g E). mesh.
  destruct (e_manning E), (e_quad E), (e_nikuradse E); try reflexivity; apply f_equal; split_sum.
Qed.
Lemma part_bdrag : forall psi uv uv_old,
  boundary_drag E1 (cv psi) (cv uv) (cv uv_old) = boundary_drag E (cv psi) uv uv_old.
Proof.
  intros psi uv uv_old. unfold boundary_drag. mesh. split_sum; intros b H; cbn [env_of mesh_of e_drag_b m_marker];
  (destruct (e_drag_b E (m_marker M b)); [|reflexivity]); cbv zeta; open; rewrite !H; look; try reflexivity.
  unfold dot2, sub2, scal2; look. ring.
Qed.
Lemma part_turbines : forall psi uv uv_old eta_old,
  turbine_drag E1 (cv psi) (cv uv) (cv uv_old) (cs eta_old) = turbine_drag E (cv psi) uv uv_old eta_old.
Proof.
  intros psi uv uv_old eta_old. unfold turbine_drag. apply f_equal. cbn [env_of e_farms].
  induction (e_farms E) as [|[[[pts wt] den] ct] l IH]; [reflexivity|]. cbn [map fold_right]. apply f_equal2; [|exact IH].
  apply integral_part; [inside|outside].
Qed.
Lemma part_momentum : forall psi uv eta uv_old eta_old,
  momentum_residual E1 (cv psi) (cv uv) (cs eta) (cv uv_old) (cs eta_old) = momentum_residual E (cv psi) uv eta uv_old eta_old.
Proof.
  intros psi uv eta uv_old eta_old. unfold momentum_residual. rewrite part_drag.
  destruct (quadratic_drag E (cv psi) uv uv_old eta_old); [|reflexivity]. apply f_equal.
  rewrite part_pressure, part_advection, part_viscosity, part_bdrag, part_turbines.
  assert (A1 : coriolis E1 (cv psi) (cv uv) = coriolis E (cv psi) uv).
  { unfold coriolis. mesh. change (e_coriolis E1) with (e_coriolis E). destruct (e_coriolis E); [|reflexivity]. split_sum. }
  assert (A2 : wind E1 (cv psi) (cs eta_old) = wind E (cv psi) eta_old).
  { unfold wind. mesh. change (e_wind E1) with (e_wind E). destruct (e_wind E); [|reflexivity]. split_sum. }
  assert (A3 : atmospheric E1 (cv psi) = atmospheric E (cv psi)).
  { unfold atmospheric. mesh. change (e_patm_grad E1) with (e_patm_grad E). destruct (e_patm_grad E); [|reflexivity]. split_sum. }
  assert (A4 : linear_drag E1 (cv psi) (cv uv) = linear_drag E (cv psi) uv).
  { unfold linear_drag. mesh. change (e_linear E1) with (e_linear E). destruct (e_linear E); [|reflexivity]. split_sum. }
  assert (A5 : bottom_drag_3d E1 (cv psi) (cs eta_old) = bottom_drag_3d E (cv psi) eta_old).
  { unfold bottom_drag_3d. mesh. change (e_drag3d E1) with (e_drag3d E). destruct (e_drag3d E) as [[cd ub]|]; [|reflexivity]. split_sum. }
  assert (A6 : momentum_source E1 (cv psi) = momentum_source E (cv psi)).
  { unfold momentum_source. mesh. change (e_msource E1) with (e_msource E). destruct (e_msource E); [|reflexivity]. split_sum. }
  rewrite A1, A2, A3, A4, A5, A6. reflexivity.
Qed.
Lemma part_continuity : forall phi uv eta uv_old eta_old dh dh1, (forall p, in_v P p = true -> dh1 p = dh p) ->
  continuity_residual E1 (cs phi) (cv uv) (cs eta) (cv uv_old) (cs eta_old) dh1 = continuity_residual E (cs phi) uv eta uv_old eta_old dh.
Proof.
  intros phi uv eta uv_old eta_old dh dh1 Hd. unfold continuity_residual. rewrite (part_hu_div _ _ _ _ _ dh dh1 Hd).
  apply f_equal. unfold continuity_source. mesh. change (e_vsource E1) with (e_vsource E). destruct (e_vsource E); [|reflexivity]. split_sum.
Qed.

(** ** Tracers *)
Variable T : tracer_env V F B.
Ltac tbnd := let b := fresh "b" in let H := fresh "H" in intros b H; cbn [env_of mesh_of e_mesh m_marker];
  (destruct (t_bnd T (m_marker M b)) as [tb|]); cbv zeta; unfold tuv_ext; open; rewrite ?H; look; try reflexivity;
  unfold dot2, add2, sub2, scal2; look; unfold Rdiv; try ring.
Lemma part_tadv : forall phi q uv elev,
  tracer_advection E1 T (cs phi) (cs q) (cv uv) (cs elev) = tracer_advection E T (cs phi) q uv elev.
Proof.
  intros phi q uv elev. unfold tracer_advection, un_av. mesh. destruct (t_dg T); [destruct (t_lax T) as [[lf sp]|]|]; split_sum; try tbnd.
Qed.
Lemma part_cons : forall phi q uv elev,
  cons_advection E1 T (cs phi) (cs q) (cv uv) (cs elev) = cons_advection E T (cs phi) q uv elev.
Proof.
  intros phi q uv elev. unfold cons_advection, un_av. mesh. destruct (t_dg T); [destruct (t_lax T) as [[lf sp]|]|]; split_sum; try tbnd.
Qed.
Lemma part_tdiff : forall phi q uv elev gext,
  tracer_diffusion E1 T (cs phi) (cs q) (cv uv) (cs elev) gext = tracer_diffusion E T (cs phi) q uv elev gext.
Proof.
  intros phi q uv elev gext. unfold tracer_diffusion. mesh. destruct (t_mu T) as [mu|]; [|reflexivity]. destruct (t_dg T); split_sum; try tbnd;
  destruct (tb_diff_flux tb); try reflexivity; ring.
Qed.
Lemma part_tsource : forall phi elev,
  tracer_source E1 T (cs phi) = tracer_source E T (cs phi) /\ cons_source E1 T (cs phi) (cs elev) = cons_source E T (cs phi) elev.
Proof.
  intros phi elev. unfold tracer_source, cons_source. mesh. split; (destruct (t_source T); [|reflexivity]); split_sum.
Qed.
End Basin.

(** ** Functions of the space of one basin *)
Section Comb.
Context {V F B : Type}.
Variable P : basin V F B.
Lemma cut_add : forall p k q, cut_s P (add_s p (scale_s k q)) = add_s (cut_s P p) (scale_s k (cut_s P q)).
Proof.
  intros p k q. apply sfield_ext; intros; cbn [cut_s add_s scale_s s_v s_gv s_f s_gf s_b s_gb];
  match goal with |- context [if ?b then _ else _] => destruct b end; try reflexivity; try ring;
  unfold add2, scal2; cbn [fst snd]; f_equal; ring.
Qed.
Lemma cut_zero : cut_s P (@const_s V F B 0) = const_s 0.
Proof.
  apply sfield_ext; intros; cbn [cut_s const_s s_v s_gv s_f s_gf s_b s_gb];
  match goal with |- context [if ?b then _ else _] => destruct b end; reflexivity.
Qed.
Lemma cut_comb : forall n m c (f : nat -> sfield V F B), (forall i, (i < n)%nat -> cut_s P (f i) = f i) ->
  (forall i, (n <= i < n + m)%nat -> cut_s P (f i) = const_s 0) ->
  cut_s P (comb (n + m) c f) = comb n c f.
Proof.
  intros n m c f H1 H0. induction m as [|m IH].
  - rewrite Nat.add_0_r in *. clear H0. induction n as [|n IHn]; [apply cut_zero|]. cbn [comb].
    rewrite cut_add, IHn by (intros; apply H1; lia). rewrite H1 by lia. reflexivity.
  - rewrite Nat.add_succ_r in *. cbn [comb]. rewrite cut_add, IH by (intros; apply H0; lia). rewrite H0 by lia.
    apply sfield_ext; intros; cbn [add_s scale_s const_s s_v s_gv s_f s_gf s_b s_gb]; try ring;
    apply pair_ext; unfold add2, scal2; cbn [fst snd]; ring.
Qed.
End Comb.
