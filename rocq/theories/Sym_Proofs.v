(** C92: lemmas about renamed points, scaled test functions and moved functions. *)
From Coq Require Import Reals List Bool Lra Lia Permutation FunctionalExtensionality.
From Verif Require Import Forms_Model Forms_Spec Forms_Proofs Galerkin_Model Frame_Spec Frame_Proofs Sym_Spec.
Import ListNotations.
Open Scope R_scope.

(** ** Renamed points *)
Section Naming.
Context {V F B V' F' B' : Type}.
Variable r : naming V F B V' F' B'.
Hypothesis Hr : faithful r.

Lemma integral_map {X Y} : forall (f : X -> Y) (g : Y -> X) l wt h, (forall x, g (f x) = x) ->
  integral (map f l) (fun y => wt (g y)) (fun y => h (g y)) = integral l wt h.
Proof.
  intros f g l wt h H. unfold integral. induction l as [|x l IH]; [reflexivity|]. cbn [map fold_right]. rewrite IH, H. reflexivity.
Qed.
Lemma ren_dx : forall M g h, (forall p, g p = h (r_v r p)) -> dx (ren_mesh r M) g = dx M h.
Proof.
  intros M g h H. replace g with (fun p => h (r_v r p)) by (apply functional_extensionality; intro; symmetry; apply H).
  apply (integral_map (r_v' r) (r_v r)), Hr.
Qed.
Lemma ren_dS : forall M g h, (forall p, g p = h (r_f r p)) -> dS (ren_mesh r M) g = dS M h.
Proof.
  intros M g h H. replace g with (fun p => h (r_f r p)) by (apply functional_extensionality; intro; symmetry; apply H).
  apply (integral_map (r_f' r) (r_f r)), Hr.
Qed.
Lemma ren_ds : forall M g h, (forall p, g p = h (r_b r p)) -> ds (ren_mesh r M) g = ds M h.
Proof.
  intros M g h H. replace g with (fun p => h (r_b r p)) by (apply functional_extensionality; intro; symmetry; apply H).
  apply (integral_map (r_b' r) (r_b r)), Hr.
Qed.

Variable E : swe_env V F B.
Notation E' := (ren_env r E).
Notation M := (e_mesh E).
Notation rs := (ren_s r).
Notation rv := (ren_v r).

Lemma ren_eta_ext : forall e eta b, eta_ext (ren_ext r e) (at_b r eta) b = eta_ext e eta (r_b r b).
Proof. intros e eta b. unfold eta_ext. cbn [ren_ext ex_eta]. destruct (ex_eta e); reflexivity. Qed.
Lemma ren_uv_ext : forall e eta u b, uv_ext E' (ren_ext r e) (at_b r eta) (at_b r u) b = uv_ext E e eta u (r_b r b).
Proof.
  intros e eta u b. unfold uv_ext. cbn [ren_ext ex_uv]. destruct (ex_uv e) as [|g|g|g]; cbn [ren_uvext]; try reflexivity.
  unfold hb. rewrite ren_eta_ext. cbn [ren_env ren_mesh e_mesh m_marker m_nb e_len e_depth e_bath_b at_b].
  rewrite (proj2 (proj2 (proj2 Hr))). reflexivity.
Qed.
Lemma ren_eta_s : forall e (eta : sfield V F B) b, eta_ext (ren_ext r e) (s_b (rs eta)) b = eta_ext e (s_b eta) (r_b r b).
Proof. intros e eta b. exact (ren_eta_ext e (s_b eta) b). Qed.
Lemma ren_uv_s : forall e (eta : sfield V F B) (u : vfield V F B) b,
  uv_ext E' (ren_ext r e) (s_b (rs eta)) (vb (rv u)) b = uv_ext E e (s_b eta) (vb u) (r_b r b).
Proof. intros e eta u b. exact (ren_uv_ext e (s_b eta) (vb u) b). Qed.

Ltac mesh := change (e_mesh E') with (ren_mesh r M).
Lemma ren_marker : forall m, r_m r (r_m' r m) = m. Proof. apply Hr. Qed.
Ltac at_bnd b := change (e_bnd E' (m_marker (ren_mesh r M) b)) with (ren_bnd r (e_bnd E (r_m r (r_m' r (m_marker M (r_b r b))))));
  rewrite ren_marker;
  destruct (e_bnd E (m_marker M (r_b r b))) as [|e]; cbn [ren_bnd].

Lemma ren_pressure : forall psi uv eta eta_old,
  pressure_gradient E' (rv psi) (rv uv) (rs eta) (rs eta_old) = pressure_gradient E psi uv eta eta_old.
Proof.
  intros. unfold pressure_gradient. mesh. change (e_eta_dg E') with (e_eta_dg E). change (e_g E') with (e_g E).
  destruct (e_eta_dg E).
  - do 2 f_equal; [f_equal|].
    + f_equal. apply ren_dx. reflexivity.
    + f_equal. apply ren_dS. reflexivity.
    + f_equal. apply ren_ds. intro b. at_bnd b; [reflexivity|]. rewrite ren_uv_s, ren_eta_s. reflexivity.
  - do 2 f_equal.
    + f_equal. apply ren_dx. reflexivity.
    + f_equal. apply ren_ds. intro b. at_bnd b; [reflexivity|]. rewrite ren_uv_s, ren_eta_s. reflexivity.
Qed.

Lemma ren_hu_div : forall phi uv eta uv_old eta_old dh dh', (forall p, dh' p = dh (r_v r p)) ->
  hu_div E' (rs phi) (rv uv) (rs eta) (rv uv_old) (rs eta_old) dh' = hu_div E phi uv eta uv_old eta_old dh.
Proof.
  intros phi uv eta uv_old eta_old dh dh' Hd. unfold hu_div. mesh. change (e_u_jump E') with (e_u_jump E). change (e_eta_dg E') with (e_eta_dg E).
  change (e_g E') with (e_g E). destruct (e_u_jump E).
  - do 2 f_equal; [f_equal|].
    + f_equal. apply ren_dx. reflexivity.
    + destruct (e_eta_dg E); [|reflexivity]. apply ren_dS. reflexivity.
    + apply ren_ds. intro b. at_bnd b; [reflexivity|]. unfold hu_flux_b, hb. rewrite !ren_uv_s, !ren_eta_s. reflexivity.
  - do 2 f_equal.
    + apply ren_dx. intro p. rewrite Hd. reflexivity.
    + apply ren_ds. intro b. at_bnd b; [reflexivity|]. cbn [ren_ext ex_un]. destruct (ex_un e); reflexivity.
Qed.

Lemma ren_advection : forall psi uv eta uv_old eta_old,
  advection E' (rv psi) (rv uv) (rs eta) (rv uv_old) (rs eta_old) = advection E psi uv eta uv_old eta_old.
Proof.
  intros. unfold advection. mesh. change (e_nonlinear E') with (e_nonlinear E). change (e_u_jump E') with (e_u_jump E).
  change (e_lax E') with (e_lax E). change (e_g E') with (e_g E).
  destruct (e_nonlinear E); [|reflexivity]. do 2 f_equal; [f_equal|].
  - f_equal. apply ren_dx. reflexivity.
  - destruct (e_u_jump E); [|reflexivity]. f_equal.
    + apply ren_dS. reflexivity.
    + destruct (e_lax E) as [lf|]; [|reflexivity]. f_equal.
      * apply ren_dS. reflexivity.
      * apply ren_ds. intro b. at_bnd b; reflexivity.
  - apply ren_ds. intro b. at_bnd b; [reflexivity|]. rewrite !ren_uv_s, !ren_eta_s. reflexivity.
Qed.

Lemma ren_viscosity : forall psi uv eta eta_old,
  viscosity E' (rv psi) (rv uv) (rs eta) (rs eta_old) = viscosity E psi uv eta eta_old.
Proof.
  intros. unfold viscosity. mesh. change (e_nu E') with (option_map rs (e_nu E)).
  destruct (e_nu E) as [nu|]; [|reflexivity]. cbn [option_map].
  change (e_u_jump E') with (e_u_jump E). change (e_grad_depth E') with (e_grad_depth E).
  do 2 f_equal; [f_equal|].
  - apply ren_dx. reflexivity.
  - destruct (e_u_jump E); [|reflexivity]. f_equal.
    + apply ren_dS. reflexivity.
    + apply ren_ds. intro b. at_bnd b; [reflexivity|].
      replace (delta_uv E' (rv uv) (rs eta) (ren_ext r e) b) with (delta_uv E uv eta e (r_b r b)); [destruct (delta_uv E uv eta e (r_b r b)); reflexivity|].
      unfold delta_uv. rewrite ren_uv_s. cbn [ren_ext ex_un ex_uv]. destruct (ex_un e); [reflexivity|]. destruct (ex_uv e); reflexivity.
  - destruct (e_grad_depth E); [|reflexivity]. apply ren_dx. reflexivity.
Qed.

Lemma ren_coriolis : forall psi uv, coriolis E' (rv psi) (rv uv) = coriolis E psi uv.
Proof.
  intros. unfold coriolis. mesh. change (e_coriolis E') with (option_map (at_v r) (e_coriolis E)).
  destruct (e_coriolis E) as [c|]; [|reflexivity]. cbn [option_map]. f_equal. apply ren_dx. reflexivity.
Qed.
Lemma ren_wind : forall psi eta_old, wind E' (rv psi) (rs eta_old) = wind E psi eta_old.
Proof.
  intros. unfold wind. mesh. change (e_wind E') with (option_map (at_v r) (e_wind E)).
  destruct (e_wind E) as [c|]; [|reflexivity]. cbn [option_map]. apply ren_dx. reflexivity.
Qed.
Lemma ren_atmospheric : forall psi, atmospheric E' (rv psi) = atmospheric E psi.
Proof.
  intros. unfold atmospheric. mesh. change (e_patm_grad E') with (option_map (at_v r) (e_patm_grad E)).
  destruct (e_patm_grad E) as [c|]; [|reflexivity]. cbn [option_map]. f_equal. apply ren_dx. reflexivity.
Qed.
Lemma ren_quadratic : forall psi uv uv_old eta_old,
  quadratic_drag E' (rv psi) (rv uv) (rv uv_old) (rs eta_old) = quadratic_drag E psi uv uv_old eta_old.
Proof.
  intros. unfold quadratic_drag. mesh.
  replace (drag_coefficient E' (rs eta_old)) with (option_map (option_map (at_v r)) (drag_coefficient E eta_old)).
  - destruct (drag_coefficient E eta_old) as [[cd|]|]; [|reflexivity|reflexivity]. cbn [option_map]. do 2 f_equal. apply ren_dx. reflexivity.
  - unfold drag_coefficient. cbn [ren_env e_manning e_quad e_nikuradse].
    destruct (e_manning E), (e_quad E), (e_nikuradse E); reflexivity.
Qed.
Lemma ren_boundary_drag : forall psi uv uv_old, boundary_drag E' (rv psi) (rv uv) (rv uv_old) = boundary_drag E psi uv uv_old.
Proof.
  intros. unfold boundary_drag. mesh. f_equal. apply ren_ds. intro b.
  change (e_drag_b E' (m_marker (ren_mesh r M) b)) with (option_map (at_b r) (e_drag_b E (r_m r (r_m' r (m_marker M (r_b r b)))))). rewrite ren_marker.
  destruct (e_drag_b E (m_marker M (r_b r b))); reflexivity.
Qed.
Lemma ren_linear_drag : forall psi uv, linear_drag E' (rv psi) (rv uv) = linear_drag E psi uv.
Proof.
  intros. unfold linear_drag. mesh. change (e_linear E') with (option_map (at_v r) (e_linear E)).
  destruct (e_linear E) as [c|]; [|reflexivity]. cbn [option_map]. f_equal. apply ren_dx. reflexivity.
Qed.
Lemma ren_bottom_drag : forall psi eta_old, bottom_drag_3d E' (rv psi) (rs eta_old) = bottom_drag_3d E psi eta_old.
Proof.
  intros. unfold bottom_drag_3d. mesh. cbn [ren_env e_drag3d]. destruct (e_drag3d E) as [[cd ub]|]; [|reflexivity].
  cbn [option_map fst snd]. f_equal. apply ren_dx. reflexivity.
Qed.
Lemma ren_turbines : forall psi uv uv_old eta_old,
  turbine_drag E' (rv psi) (rv uv) (rv uv_old) (rs eta_old) = turbine_drag E psi uv uv_old eta_old.
Proof.
  intros. unfold turbine_drag. f_equal. cbn [ren_env e_farms]. induction (e_farms E) as [|[[[pts wt] den] ct] l IH]; [reflexivity|].
  cbn [map fold_right]. rewrite IH. f_equal. unfold at_v.
  apply (integral_map (r_v' r) (r_v r) pts wt
    (fun p => ct (vv uv_old p) (hv E eta_old p) * den p * sqrt (dot2 (vv uv_old p) (vv uv_old p)) * dot2 (vv psi p) (vv uv p) / hv E eta_old p)), Hr.
Qed.
Lemma ren_msource : forall psi, momentum_source E' (rv psi) = momentum_source E psi.
Proof.
  intros. unfold momentum_source. mesh. change (e_msource E') with (option_map (at_v r) (e_msource E)).
  destruct (e_msource E) as [c|]; [|reflexivity]. cbn [option_map]. apply ren_dx. reflexivity.
Qed.
Lemma ren_vsource : forall phi, continuity_source E' (rs phi) = continuity_source E phi.
Proof.
  intros. unfold continuity_source. mesh. change (e_vsource E') with (option_map (at_v r) (e_vsource E)).
  destruct (e_vsource E) as [c|]; [|reflexivity]. cbn [option_map]. apply ren_dx. reflexivity.
Qed.

Lemma ren_momentum : forall psi uv eta uv_old eta_old,
  momentum_residual E' (rv psi) (rv uv) (rs eta) (rv uv_old) (rs eta_old) = momentum_residual E psi uv eta uv_old eta_old.
Proof.
  intros. unfold momentum_residual. rewrite ren_quadratic, ren_pressure, ren_advection, ren_viscosity, ren_coriolis, ren_wind,
    ren_atmospheric, ren_linear_drag, ren_boundary_drag, ren_bottom_drag, ren_msource, ren_turbines. reflexivity.
Qed.
Lemma ren_continuity : forall phi uv eta uv_old eta_old dh dh', (forall p, dh' p = dh (r_v r p)) ->
  continuity_residual E' (rs phi) (rv uv) (rs eta) (rv uv_old) (rs eta_old) dh' = continuity_residual E phi uv eta uv_old eta_old dh.
Proof. intros. unfold continuity_residual. rewrite ren_vsource, (ren_hu_div _ _ _ _ _ dh) by assumption. reflexivity. Qed.

(** *** Tracers *)
Variable T : tracer_env V F B.
Notation T' := (ren_tenv r T).
Lemma ren_tuv : forall tb elev u b, tuv_ext E' (ren_tbnd r tb) (s_b (rs elev)) (vb (rv u)) b = tuv_ext E tb (s_b elev) (vb u) (r_b r b).
Proof. intros tb elev u b. exact (ren_uv_ext (mk_ext (tb_elev tb) (tb_uv tb) None) (s_b elev) (vb u) b). Qed.
Lemma ren_c_ext : forall tb c b, c_ext (ren_tbnd r tb) c b = c_ext tb c (r_b r b).
Proof. intros tb c b. unfold c_ext. cbn [ren_tbnd tb_value]. destruct (tb_value tb); reflexivity. Qed.
Ltac at_tb b := change (t_bnd T' (m_marker (ren_mesh r M) b)) with (option_map (ren_tbnd r) (t_bnd T (r_m r (r_m' r (m_marker M (r_b r b))))));
  rewrite ren_marker;
  destruct (t_bnd T (m_marker M (r_b r b))) as [tb|]; cbn [option_map]; [|reflexivity].

Lemma ren_tadv : forall phi c uv elev,
  tracer_advection E' T' (rs phi) (rs c) (rv uv) (rs elev) = tracer_advection E T phi c uv elev.
Proof.
  intros. unfold tracer_advection. mesh. change (t_dg T') with (t_dg T).
  change (t_lax T') with (option_map (fun ls => (fst ls, fun f => snd ls (r_f r f))) (t_lax T)).
  do 2 f_equal; [f_equal|].
  - f_equal. apply ren_dx. reflexivity.
  - destruct (t_dg T); [|reflexivity]. f_equal.
    + apply ren_dS. reflexivity.
    + destruct (t_lax T) as [[lf sp]|]; [|reflexivity]. cbn [option_map fst snd]. apply ren_dS. reflexivity.
  - apply ren_ds. intro b. at_tb b. rewrite ren_tuv, ren_c_ext. reflexivity.
Qed.
Lemma ren_cons : forall phi c uv elev,
  cons_advection E' T' (rs phi) (rs c) (rv uv) (rs elev) = cons_advection E T phi c uv elev.
Proof.
  intros. unfold cons_advection. mesh. change (t_dg T') with (t_dg T).
  change (t_lax T') with (option_map (fun ls => (fst ls, fun f => snd ls (r_f r f))) (t_lax T)).
  do 2 f_equal; [f_equal|].
  - f_equal. apply ren_dx. reflexivity.
  - destruct (t_dg T); [|reflexivity]. f_equal.
    + apply ren_dS. reflexivity.
    + destruct (t_lax T) as [[lf sp]|]; [|reflexivity]. cbn [option_map fst snd]. apply ren_dS. reflexivity.
  - apply ren_ds. intro b. at_tb b. rewrite ren_tuv, ren_c_ext. reflexivity.
Qed.
Lemma ren_tdiff : forall phi c uv elev gext,
  tracer_diffusion E' T' (rs phi) (rs c) (rv uv) (rs elev) (at_b r gext) = tracer_diffusion E T phi c uv elev gext.
Proof.
  intros. unfold tracer_diffusion. mesh. change (t_mu T') with (option_map rs (t_mu T)). change (t_dg T') with (t_dg T).
  destruct (t_mu T) as [mu|]; [|reflexivity]. cbn [option_map]. do 2 f_equal; [f_equal|].
  - apply ren_dx. reflexivity.
  - destruct (t_dg T); [|reflexivity]. apply ren_dS. reflexivity.
  - apply ren_ds. intro b. at_tb b. rewrite ren_tuv. cbn [ren_tbnd tb_diff_flux tb_value].
    destruct (tb_diff_flux tb); [reflexivity|]. destruct (tb_value tb); reflexivity.
Qed.
Lemma ren_tsource : forall phi, tracer_source E' T' (rs phi) = tracer_source E T phi.
Proof.
  intros. unfold tracer_source. mesh. change (t_source T') with (option_map (at_v r) (t_source T)).
  destruct (t_source T) as [s|]; [|reflexivity]. cbn [option_map]. do 2 f_equal. apply ren_dx. reflexivity.
Qed.
Lemma ren_csource : forall phi elev, cons_source E' T' (rs phi) (rs elev) = cons_source E T phi elev.
Proof.
  intros. unfold cons_source. mesh. change (t_source T') with (option_map (at_v r) (t_source T)).
  destruct (t_source T) as [s|]; [|reflexivity]. cbn [option_map]. do 2 f_equal. apply ren_dx. reflexivity.
Qed.
End Naming.

(** ** Scaled test functions *)
Section Scaled.
Context {V F B : Type}.
Variable k : R.
Variable E : swe_env V F B.
Notation M := (e_mesh E).
Notation sc := (scale_v k).

Lemma k_opp : forall a' a, a' = k * a -> - a' = k * - a. Proof. intros; subst; ring. Qed.
Lemma k_plus : forall a' a b' b, a' = k * a -> b' = k * b -> a' + b' = k * (a + b). Proof. intros; subst; ring. Qed.
Lemma k_mult : forall c a' a, a' = k * a -> c * a' = k * (c * a). Proof. intros; subst; ring. Qed.
Lemma k_zero : 0 = k * 0. Proof. ring. Qed.
Lemma k_int {X} : forall (l : list X) wt g' g, (forall x, g' x = k * g x) -> integral l wt g' = k * integral l wt g.
Proof. intros l wt g' g H. rewrite <- integral_scal. apply integral_ext. intros x _. apply H. Qed.
Lemma k_dx : forall m g' g, (forall p : V, g' p = k * g p) -> dx (V:=V) (F:=F) (B:=B) m g' = k * dx m g.
Proof. intros. apply k_int. assumption. Qed.
Lemma k_dS : forall m g' g, (forall p : F, g' p = k * g p) -> dS (V:=V) (F:=F) (B:=B) m g' = k * dS m g.
Proof. intros. apply k_int. assumption. Qed.
Lemma k_ds : forall m g' g, (forall p : B, g' p = k * g p) -> ds (V:=V) (F:=F) (B:=B) m g' = k * ds m g.
Proof. intros. apply k_int. assumption. Qed.
Ltac leaf := unfold jump_vn, unb, divv, vv, vf, vb, dot2, add2, sub2, scal2, inner_t, outer, tensor_jump, grad_v, grad_f, grad_b, avg_t, scal_t, add_t, jump;
  cbn [scale_v scale_s v_x v_y s_v s_gv s_f s_gf s_b s_gb fst snd]; unfold scal2; cbn [fst snd]; unfold Rdiv; ring.
Ltac parts := repeat first [apply k_zero | apply k_opp | apply k_plus | apply k_dx; intro | apply k_dS; intro | apply k_ds; intro | apply k_mult].

Lemma k_pressure : forall psi uv eta eta_old, pressure_gradient E (sc psi) uv eta eta_old = k * pressure_gradient E psi uv eta eta_old.
Proof.
  intros. unfold pressure_gradient. destruct (e_eta_dg E).
  - apply k_opp, k_plus; [apply k_plus|]; apply k_mult.
    + apply k_dx. intro p. leaf.
    + apply k_dS. intro f. set (a := avg _ + _). leaf.
    + apply k_ds. intro b. destruct (e_bnd E (m_marker M b)); [set (a := s_b eta b + _)|set (a := 0.5 * _ + _)]; clearbody a; leaf.
  - apply k_opp, k_plus; apply k_mult.
    + apply k_dx. intro p. leaf.
    + apply k_ds. intro b. destruct (e_bnd E (m_marker M b)); [apply k_zero|]. set (a := 0.5 * _ + _ - _). clearbody a; leaf.
Qed.
Lemma k_advection : forall psi uv eta uv_old eta_old, advection E (sc psi) uv eta uv_old eta_old = k * advection E psi uv eta uv_old eta_old.
Proof.
  intros. unfold advection. destruct (e_nonlinear E); [|apply k_zero].
  apply k_opp, k_plus; [apply k_plus|].
  - apply k_opp, k_dx. intro p. leaf.
  - destruct (e_u_jump E); [|apply k_zero]. apply k_plus.
    + apply k_dS. intro f. leaf.
    + destruct (e_lax E); [|apply k_zero]. apply k_plus.
      * apply k_dS. intro f. set (a := Rabs _). clearbody a. leaf.
      * apply k_ds. intro b. destruct (e_bnd E (m_marker M b)); [|apply k_zero]. cbv zeta. set (a := Rabs _). clearbody a. leaf.
  - apply k_ds. intro b. destruct (e_bnd E (m_marker M b)) as [|e]; [apply k_zero|]. cbv zeta.
    set (a := 0.5 * _ + _). clearbody a. set (q := scal2 0.5 _). clearbody q. leaf.
Qed.
Lemma k_inner : forall a t, inner_t (scal_t k a) t = k * inner_t a t.
Proof. intros [[a b] [c d]] [[a' b'] [c' d']]. unfold inner_t, scal_t, dot2, scal2; cbn. ring. Qed.
Lemma k_viscosity : forall psi uv eta eta_old, viscosity E (sc psi) uv eta eta_old = k * viscosity E psi uv eta eta_old.
Proof.
  intros. unfold viscosity. destruct (e_nu E) as [nu|]; [|apply k_zero].
  assert (J : forall f, tensor_jump E (sc psi) f = scal_t k (tensor_jump E psi f)).
  { intro f. apply tensor_ext; cbn; ring. }
  assert (A : forall f, avg_t (grad_f (sc psi) f) = scal_t k (avg_t (grad_f psi f))).
  { intro f. apply tensor_ext; cbn; ring. }
  apply k_opp, k_plus; [apply k_plus|].
  - apply k_dx. intro p. apply (k_inner (grad_v psi p)).
  - destruct (e_u_jump E); [|apply k_zero]. apply k_plus.
    + apply k_dS. intro f. cbv zeta. rewrite J, A, !k_inner. ring.
    + apply k_ds. intro b. destruct (e_bnd E (m_marker M b)) as [|e]; [apply k_zero|].
      destruct (delta_uv E uv eta e b) as [d|]; [|apply k_zero]. cbv zeta.
      replace (outer (vb (sc psi) b) (m_nb M b)) with (scal_t k (outer (vb psi b) (m_nb M b))) by (apply tensor_ext; cbn; ring).
      change (grad_b (sc psi) b) with (scal_t k (grad_b psi b)). rewrite !k_inner. ring.
  - destruct (e_grad_depth E); [|apply k_zero]. apply k_dx. intro p. set (t := vec_t _ _). clearbody t. leaf.
Qed.
Lemma k_dot : forall (psi : vfield V F B) t p, dot2 t (vv (sc psi) p) = k * dot2 t (vv psi p).
Proof. intros. leaf. Qed.
Lemma k_dot' : forall (psi : vfield V F B) t p, dot2 (vv (sc psi) p) t = k * dot2 (vv psi p) t.
Proof. intros. leaf. Qed.
Lemma k_quadratic : forall psi uv uv_old eta_old,
  quadratic_drag E (sc psi) uv uv_old eta_old = option_map (Rmult k) (quadratic_drag E psi uv uv_old eta_old).
Proof.
  intros. unfold quadratic_drag. destruct (drag_coefficient E eta_old) as [[cd|]|]; cbn [option_map]; [| |reflexivity]; f_equal.
  - apply k_opp, k_dx. intro p. rewrite k_dot'. unfold Rdiv. ring.
  - apply k_zero.
Qed.

Lemma k_momentum : forall psi uv eta uv_old eta_old,
  momentum_residual E (sc psi) uv eta uv_old eta_old = option_map (Rmult k) (momentum_residual E psi uv eta uv_old eta_old).
Proof.
  intros. unfold momentum_residual. rewrite k_quadratic.
  destruct (quadratic_drag E psi uv uv_old eta_old) as [q|]; cbn [option_map]; [|reflexivity]. f_equal.
  rewrite k_pressure, k_advection, k_viscosity.
  assert (H1 : coriolis E (sc psi) uv = k * coriolis E psi uv).
  { unfold coriolis. destruct (e_coriolis E) as [cc|]; [|apply k_zero]. apply k_opp, k_dx. intro p. leaf. }
  assert (H2 : wind E (sc psi) eta_old = k * wind E psi eta_old).
  { unfold wind. destruct (e_wind E) as [cc|]; [|apply k_zero]. apply k_dx. intro p. rewrite k_dot. unfold Rdiv. ring. }
  assert (H3 : atmospheric E (sc psi) = k * atmospheric E psi).
  { unfold atmospheric. destruct (e_patm_grad E) as [cc|]; [|apply k_zero]. apply k_opp, k_dx. intro p. rewrite k_dot. unfold Rdiv. ring. }
  assert (H4 : linear_drag E (sc psi) uv = k * linear_drag E psi uv).
  { unfold linear_drag. destruct (e_linear E) as [cc|]; [|apply k_zero]. apply k_opp, k_dx. intro p. rewrite k_dot'. ring. }
  assert (H5 : boundary_drag E (sc psi) uv uv_old = k * boundary_drag E psi uv uv_old).
  { unfold boundary_drag. apply k_opp, k_ds. intro b. destruct (e_drag_b E (m_marker M b)) as [cc|]; [|apply k_zero]. cbv zeta.
    set (s := sqrt _). clearbody s. set (t := sub2 _ _). clearbody t. leaf. }
  assert (H6 : bottom_drag_3d E (sc psi) eta_old = k * bottom_drag_3d E psi eta_old).
  { unfold bottom_drag_3d. destruct (e_drag3d E) as [[cd ub]|]; [|apply k_zero]. apply k_opp, k_dx. intro p. rewrite k_dot. ring. }
  assert (H7 : momentum_source E (sc psi) = k * momentum_source E psi).
  { unfold momentum_source. destruct (e_msource E) as [cc|]; [|apply k_zero]. apply k_dx. intro p. rewrite k_dot. ring. }
  assert (H8 : turbine_drag E (sc psi) uv uv_old eta_old = k * turbine_drag E psi uv uv_old eta_old).
  { unfold turbine_drag. apply k_opp. induction (e_farms E) as [|[[[pts wt] den] ct] l IH]; [apply k_zero|]. cbn [fold_right].
    apply k_plus; [|exact IH]. apply k_int. intro p. rewrite k_dot'. unfold Rdiv. ring. }
  rewrite H1, H2, H3, H4, H5, H6, H7, H8. ring.
Qed.
End Scaled.

(** ** Combinations of basis functions *)
Section Combine.
Context {V F B : Type}.
Notation sfield := (sfield V F B).

Definition total (l : list sfield) : sfield := fold_right add_s (const_s 0) l.
Ltac pointwise := apply sfield_ext; intros; cbn [const_s add_s scale_s s_v s_gv s_f s_gf s_b s_gb]; try apply pair_ext; cbn; ring.
Lemma add_swap : forall p q s : sfield, add_s p (add_s q s) = add_s q (add_s p s).
Proof. intros. pointwise. Qed.
Lemma total_last : forall l x, total (l ++ [x]) = add_s (total l) x.
Proof.
  intros l x. induction l as [|y l IH]; unfold total in *; cbn [app fold_right]; [pointwise|]. rewrite IH. pointwise.
Qed.
Lemma total_perm : forall l l', Permutation l l' -> total l = total l'.
Proof.
  intros l l' H. unfold total. induction H; cbn [fold_right]; [reflexivity|rewrite IHPermutation; reflexivity|apply add_swap|].
  rewrite IHPermutation1. exact IHPermutation2.
Qed.
Lemma comb_total : forall n c (f : nat -> sfield), comb n c f = total (map (fun i => scale_s (c i) (f i)) (seq 0 n)).
Proof.
  intros n c f. induction n as [|n IH]; [reflexivity|]. rewrite seq_S, map_app. cbn [map plus]. rewrite total_last, <- IH. reflexivity.
Qed.
Lemma comb_ext : forall n c c' (f f' : nat -> sfield), (forall i, (i < n)%nat -> c i = c' i /\ f i = f' i) -> comb n c f = comb n c' f'.
Proof.
  intros n c c' f f' H. induction n as [|n IH]; [reflexivity|]. cbn [comb]. destruct (H n) as [-> ->]; [lia|].
  rewrite IH by (intros i Hi; apply H; lia). reflexivity.
Qed.
Lemma comb_moved : forall n p q (s c c' : nat -> R) (f g : nat -> sfield), permutes n p q ->
  (forall i, (i < n)%nat -> f i = scale_s (s i) (g (p i))) -> (forall i, (i < n)%nat -> c' (p i) = s i * c i) ->
  comb n c f = comb n c' g.
Proof.
  intros n p q s c c' f g (HP & _) Hf Hc. rewrite !comb_total.
  rewrite <- (total_perm _ _ (Permutation_map (fun i => scale_s (c' i) (g i)) HP)), map_map. f_equal.
  apply map_ext_in. intros i Hi. apply in_seq in Hi. rewrite Hf, Hc by lia. pointwise.
Qed.
Lemma scale_twice : forall k (q : sfield), k = 1 \/ k = -1 -> scale_s k (scale_s k q) = q.
Proof. intros k q H. apply sfield_ext; intros; cbn [scale_s s_v s_gv s_f s_gf s_b s_gb]; try apply pair_ext; cbn; destruct H as [-> | ->]; ring. Qed.
Lemma scale_one : forall q : sfield, scale_s 1 q = q.
Proof. intro. pointwise. Qed.
End Combine.

Lemma permutes_in : forall n p q k, permutes n p q -> (k < n)%nat -> exists i, (i < n)%nat /\ p i = k.
Proof.
  intros n p q k (HP & _) Hk. assert (H : In k (map p (seq 0 n))).
  { apply (Permutation_in k (Permutation_sym HP)), in_seq. lia. }
  apply in_map_iff in H. destruct H as (i & Hi & H). exists i. apply in_seq in H. split; [lia|exact Hi].
Qed.
Lemma permutes_lt : forall n p q i, permutes n p q -> (i < n)%nat -> (p i < n)%nat.
Proof.
  intros n p q i (HP & _) Hi. assert (H : In (p i) (seq 0 n)).
  { apply (Permutation_in (p i) HP). apply in_map, in_seq. lia. }
  apply in_seq in H. lia.
Qed.

(** ** Moved functions *)
Section Moved.
Context {V F B : Type}.
Variable r : naming V F B V F B.
Variable w : view V F B.
Hypothesis Hr : faithful r.
Hypothesis Hw : proper w.
Notation ms := (moved_s r w).
Notation mv := (moved_v r w).

Lemma ren_comb : forall n c (f : nat -> sfield V F B), ren_s r (comb n c f) = comb n c (fun i => ren_s r (f i)).
Proof.
  intros n c f. induction n as [|n IH]; [reflexivity|]. cbn [comb]. rewrite <- IH. reflexivity.
Qed.
Definition ren_space (W : @space V F B) : space := mk_space (n_eta W) (fun i => ren_s r (phi W i)) (n_uv W) (fun j => ren_v r (psi W j)).
Lemma moved_eta_of : forall W u, ms (eta_of W u) = comb (n_eta W) (fun i => u (ETA i)) (fun i => ms (phi W i)).
Proof. intros W u. unfold moved_s, eta_of. rewrite ren_comb, turn_comb. reflexivity. Qed.
Lemma moved_uv_of : forall W u, mv (uv_of W u) = mk_vf (comb (n_uv W) (fun j => u (UV j)) (fun j => v_x (mv (psi W j))))
                                                      (comb (n_uv W) (fun j => u (UV j)) (fun j => v_y (mv (psi W j)))).
Proof.
  intros W u. change (mk_vf (comb (n_uv W) (fun j => u (UV j)) (fun j => v_x (mv (psi W j))))
                            (comb (n_uv W) (fun j => u (UV j)) (fun j => v_y (mv (psi W j)))))
    with (uv_of (turn_space w (ren_space W)) u). rewrite turn_uv_of. unfold moved_v. f_equal.
  unfold uv_of, ren_v. cbn [v_x v_y ren_space n_uv psi]. rewrite !ren_comb. reflexivity.
Qed.

(** the coefficients of the moved function *)
Definition move_dof (d : dof_map) (W : @space V F B) (u : dof -> R) (x : dof) : R :=
  match x with
  | ETA k => if Nat.ltb k (n_eta W) then u (ETA (qe d k)) else u x
  | UV k => if Nat.ltb k (n_uv W) then su d (qu d k) * u (UV (qu d k)) else u x
  end.

Section Space.
Variable d : dof_map.
Variable W : @space V F B.
Hypothesis HW : symmetric_space r w d W.

Lemma move_dof_eta : forall u, eta_of W (move_dof d W u) = ms (eta_of W u).
Proof.
  intro u. rewrite moved_eta_of. symmetry. destruct HW as (HP & _ & HB & _).
  apply (comb_moved _ (pe d) (qe d) (fun _ => 1)); [exact HP| |].
  - intros i Hi. rewrite scale_one. apply HB, Hi.
  - intros i Hi. cbn [move_dof]. rewrite (proj2 (Nat.ltb_lt _ _) (permutes_lt _ _ _ i HP Hi)), (proj2 HP i Hi). ring.
Qed.
Lemma move_dof_uv : forall u, uv_of W (move_dof d W u) = mv (uv_of W u).
Proof.
  intro u. rewrite moved_uv_of. symmetry. destruct HW as (_ & HP & _ & HB & _). unfold uv_of.
  f_equal; (apply (comb_moved _ (pu d) (qu d) (su d)); [exact HP| |];
  [intros j Hj; rewrite (HB j Hj); reflexivity
  |intros j Hj; cbn [move_dof]; rewrite (proj2 (Nat.ltb_lt _ _) (permutes_lt _ _ _ j HP Hj)), (proj2 HP j Hj); reflexivity]).
Qed.
Lemma moved_psi : forall j, (j < n_uv W)%nat -> psi W (pu d j) = scale_v (su d j) (mv (psi W j)).
Proof.
  intros j Hj. destruct HW as (_ & _ & _ & HB & HS). rewrite (HB j Hj). unfold scale_v. cbn [v_x v_y].
  rewrite !scale_twice by (apply HS, Hj). destruct (psi W (pu d j)); reflexivity.
Qed.

Lemma moved_momentum : forall E psi uv eta uv_old eta_old, symmetric_swe r w E ->
  momentum_residual E (mv psi) (mv uv) (ms eta) (mv uv_old) (ms eta_old) = momentum_residual E psi uv eta uv_old eta_old.
Proof.
  intros E psi uv eta uv_old eta_old HE. rewrite <- (ren_momentum r Hr E psi), <- (turn_momentum w Hw (ren_env r E)).
  unfold symmetric_swe in HE. rewrite HE. reflexivity.
Qed.
Lemma moved_continuity : forall E phi uv eta uv_old eta_old dh dh', symmetric_swe r w E -> (forall p, dh' p = dh (r_v r p)) ->
  continuity_residual E (ms phi) (mv uv) (ms eta) (mv uv_old) (ms eta_old) dh' = continuity_residual E phi uv eta uv_old eta_old dh.
Proof.
  intros E phi uv eta uv_old eta_old dh dh' HE Hd.
  rewrite <- (ren_continuity r Hr E phi uv eta uv_old eta_old dh dh' Hd), <- (turn_continuity w Hw (ren_env r E)).
  unfold symmetric_swe in HE. rewrite HE. reflexivity.
Qed.
Lemma moved_dx : forall M g g', turn_mesh w (ren_mesh r M) = M -> (forall p, g' p = g (r_v r p)) -> dx M g' = dx M g.
Proof.
  intros M g g' HM Hg. rewrite <- (ren_dx r Hr M g' g Hg), <- (turn_dx w Hw (ren_mesh r M) g' g') by reflexivity. rewrite HM. reflexivity.
Qed.
Lemma moved_vv : forall u p, vv (mv u) p = act (w_q w) (vv u (r_v r p)).
Proof. reflexivity. Qed.

(** the fields of [u'] are the moved fields of [u] *)
Definition moves (u u' : dof -> R) : Prop := uv_of W u' = mv (uv_of W u) /\ eta_of W u' = ms (eta_of W u).
Lemma moves_move : forall u, moves u (move_dof d W u).
Proof. intro u. split; [apply move_dof_uv|apply move_dof_eta]. Qed.

Lemma rows_uv : forall E dh u v u' v' j, symmetric_swe r w E -> moves u u' -> moves v v' -> (j < n_uv W)%nat ->
  swe_vector W E dh u' v' (UV (pu d j)) = su d j * swe_vector W E dh u v (UV j).
Proof.
  intros E dh u v u' v' j HE (U1 & U2) (V1 & V2) Hj. cbn [swe_vector].
  rewrite (proj2 (Nat.ltb_lt _ _) Hj), (proj2 (Nat.ltb_lt _ _) (permutes_lt _ _ _ j (proj1 (proj2 HW)) Hj)).
  rewrite moved_psi, U1, U2, V1, V2, k_momentum, moved_momentum by assumption.
  destruct (momentum_residual _ _ _ _ _ _); cbn [option_map]; [reflexivity|ring].
Qed.
Lemma rows_eta : forall E dh u v u' v' i, symmetric_swe r w E -> moves u u' -> moves v v' ->
  (forall p, dh u' v' p = dh u v (r_v r p)) -> (i < n_eta W)%nat ->
  swe_vector W E dh u' v' (ETA (pe d i)) = swe_vector W E dh u v (ETA i).
Proof.
  intros E dh u v u' v' i HE (U1 & U2) (V1 & V2) Hd Hi. cbn [swe_vector].
  rewrite (proj2 (Nat.ltb_lt _ _) Hi), (proj2 (Nat.ltb_lt _ _) (permutes_lt _ _ _ i (proj1 HW) Hi)).
  destruct HW as (_ & _ & HB & _). rewrite <- (HB i Hi), U1, U2, V1, V2. apply moved_continuity; assumption.
Qed.
Lemma mass_uv : forall M disp u u' j, turn_mesh w (ren_mesh r M) = M -> moves u u' -> (j < n_uv W)%nat ->
  swe_mass W M disp u' (UV (pu d j)) = su d j * swe_mass W M disp u (UV j).
Proof.
  intros M disp u u' j HM (U1 & U2) Hj. cbn [swe_mass].
  rewrite (proj2 (Nat.ltb_lt _ _) Hj), (proj2 (Nat.ltb_lt _ _) (permutes_lt _ _ _ j (proj1 (proj2 HW)) Hj)).
  unfold dx at 2. rewrite <- integral_scal. apply (moved_dx M (fun p => su d j * dot2 (vv (uv_of W u) p) (vv (psi W j) p))); [exact HM|].
  intro p. rewrite U1, moved_psi by exact Hj. rewrite moved_vv.
  replace (vv (scale_v (su d j) (mv (psi W j))) p) with (scal2 (su d j) (act (w_q w) (vv (psi W j) (r_v r p)))) by reflexivity.
  rewrite act_scal, (act_dot _ (proj1 Hw)). unfold dot2, scal2; cbn [fst snd]. ring.
Qed.
Lemma mass_eta : forall M disp u u' i, turn_mesh w (ren_mesh r M) = M -> moves u u' ->
  (forall p h, disp p h = disp (r_v r p) h) -> (i < n_eta W)%nat ->
  swe_mass W M disp u' (ETA (pe d i)) = swe_mass W M disp u (ETA i).
Proof.
  intros M disp u u' i HM (U1 & U2) Hd Hi. cbn [swe_mass].
  rewrite (proj2 (Nat.ltb_lt _ _) Hi), (proj2 (Nat.ltb_lt _ _) (permutes_lt _ _ _ i (proj1 HW) Hi)).
  destruct HW as (_ & _ & HB & _). rewrite <- (HB i Hi), U2. f_equal; apply moved_dx; try exact HM; intro p; [reflexivity|].
  rewrite Hd. reflexivity.
Qed.
End Space.

(** *** Tracers *)
Section TSpace.
Variables p q : nat -> nat.
Variable W : @tspace V F B.
Hypothesis HW : symmetric_tspace r w p q W.
Definition move_c (c : nat -> R) (k : nat) : R := if Nat.ltb k (n_c W) then c (q k) else c k.
Lemma move_c_of : forall c, tracer_of W (move_c c) = ms (tracer_of W c).
Proof.
  intro c. unfold moved_s, tracer_of. rewrite ren_comb, turn_comb. symmetry. destruct HW as (HP & HB).
  apply (comb_moved _ p q (fun _ => 1)); [exact HP| |].
  - intros i Hi. rewrite scale_one. apply HB, Hi.
  - intros i Hi. unfold move_c. rewrite (proj2 (Nat.ltb_lt _ _) (permutes_lt _ _ _ i HP Hi)), (proj2 HP i Hi). ring.
Qed.

Lemma moved_tadv : forall E T phi c uv elev, symmetric_swe r w E -> symmetric_tracer r w T -> upwind_clear w (ren_env r E) (ren_tenv r T) (ren_v r uv) ->
  tracer_advection E T (ms phi) (ms c) (mv uv) (ms elev) = tracer_advection E T phi c uv elev /\
  cons_advection E T (ms phi) (ms c) (mv uv) (ms elev) = cons_advection E T phi c uv elev.
Proof.
  intros E T phi c uv elev HE HT HU. unfold symmetric_swe, symmetric_tracer in *. split.
  - rewrite <- (ren_tadv r Hr E T phi), <- (turn_tadv w Hw (ren_env r E) (ren_tenv r T)) by exact HU. rewrite HE, HT. reflexivity.
  - rewrite <- (ren_cons r Hr E T phi), <- (turn_cons w Hw (ren_env r E) (ren_tenv r T)) by exact HU. rewrite HE, HT. reflexivity.
Qed.
Lemma moved_tdiff : forall E T phi c uv elev gext gext', symmetric_swe r w E -> symmetric_tracer r w T ->
  gext' = (fun b => act (w_q w) (gext (r_b r b))) ->
  tracer_diffusion E T (ms phi) (ms c) (mv uv) (ms elev) gext' = tracer_diffusion E T phi c uv elev gext.
Proof.
  intros E T phi c uv elev gext gext' HE HT ->. unfold symmetric_swe, symmetric_tracer in *.
  rewrite <- (ren_tdiff r Hr E T phi), <- (turn_tdiff w Hw (ren_env r E) (ren_tenv r T)). rewrite HE, HT. reflexivity.
Qed.
Lemma moved_tsource : forall E T phi elev, symmetric_swe r w E -> symmetric_tracer r w T ->
  tracer_source E T (ms phi) = tracer_source E T phi /\ cons_source E T (ms phi) (ms elev) = cons_source E T phi elev.
Proof.
  intros E T phi elev HE HT. unfold symmetric_swe, symmetric_tracer in *. split.
  - rewrite <- (ren_tsource r Hr E T phi), <- (turn_tsource w Hw (ren_env r E) (ren_tenv r T)). rewrite HE, HT. reflexivity.
  - rewrite <- (ren_csource r Hr E T phi), <- (turn_csource w Hw (ren_env r E) (ren_tenv r T)). rewrite HE, HT. reflexivity.
Qed.

Lemma trows : forall cons E T uv elev gext c c' i, symmetric_swe r w E -> symmetric_tracer r w T ->
  upwind_clear w (ren_env r E) (ren_tenv r T) (ren_v r uv) -> mv uv = uv -> ms elev = elev ->
  gext = (fun b => act (w_q w) (gext (r_b r b))) -> tracer_of W c' = ms (tracer_of W c) -> (i < n_c W)%nat ->
  tracer_vector cons W E T uv elev gext c' (p i) = tracer_vector cons W E T uv elev gext c i.
Proof.
  intros cons E T uv elev gext c c' i HE HT HU Huv Hel Hg Hc Hi. unfold tracer_vector.
  rewrite (proj2 (Nat.ltb_lt _ _) Hi), (proj2 (Nat.ltb_lt _ _) (permutes_lt _ _ _ i (proj1 HW) Hi)).
  destruct HW as (_ & HB). rewrite <- (HB i Hi), Hc.
  destruct (moved_tadv E T (chi W i) (tracer_of W c) uv elev HE HT HU) as [A1 A2].
  destruct (moved_tsource E T (chi W i) elev HE HT) as [S1 S2].
  pose proof (moved_tdiff E T (chi W i) (tracer_of W c) uv elev gext gext HE HT Hg) as D.
  rewrite Huv, Hel in *. rewrite A1, A2, D, S1, S2. reflexivity.
Qed.
Lemma tmass : forall M c c' i, turn_mesh w (ren_mesh r M) = M -> tracer_of W c' = ms (tracer_of W c) -> (i < n_c W)%nat ->
  tracer_mass W M c' (p i) = tracer_mass W M c i.
Proof.
  intros M c c' i HM Hc Hi. unfold tracer_mass.
  rewrite (proj2 (Nat.ltb_lt _ _) Hi), (proj2 (Nat.ltb_lt _ _) (permutes_lt _ _ _ i (proj1 HW) Hi)).
  destruct HW as (_ & HB). rewrite <- (HB i Hi), Hc. apply moved_dx; [exact HM|]. reflexivity.
Qed.
End TSpace.
End Moved.
