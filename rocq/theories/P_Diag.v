(** C63: diagnostics (vorticity, recovered gradients and Hessians, kinetic energy, error
    indicators). *)
From Coq Require Import Reals List String Bool Arith Lra Lia.
From Verif Require Import Forms_Model Forms_Spec Forms_Proofs Forms_Examples Diag_Model.
Import ListNotations.
Open Scope R_scope.
Open Scope list_scope.

Section P.
Context {V F B : Type}.
Variable M : mesh V F B.
Notation sfield := (sfield V F B).
Notation vfield := (vfield V F B).
Notation tfield := (vfield * vfield)%type.

(** difference of two functions *)
Definition sub2 (a b : R * R) : R * R := (fst a - fst b, snd a - snd b).
Definition sub_s (a b : sfield) : sfield :=
  mk_s (fun p => s_v a p - s_v b p) (fun p => sub2 (s_gv a p) (s_gv b p))
       (fun f s => s_f a f s - s_f b f s) (fun f s => sub2 (s_gf a f s) (s_gf b f s))
       (fun b' => s_b a b' - s_b b b') (fun b' => sub2 (s_gb a b') (s_gb b b')).
Definition sub_v (a b : vfield) : vfield := mk_vf (sub_s (v_x a) (v_x b)) (sub_s (v_y a) (v_y b)).

Lemma dot2_zero_sub : forall (a b : vfield) p, dot2 (vv (sub_v a b) p) (vv (sub_v a b) p) = 0 -> vv a p = vv b p.
Proof.
  intros a b p Q. change ((s_v (v_x a) p - s_v (v_x b) p)² + (s_v (v_y a) p - s_v (v_y b) p)² = 0) in Q.
  apply Rplus_sqr_eq_0 in Q. destruct Q. unfold vv. f_equal; lra.
Qed.

(* ------------------------------------------------------------------ *)
(** * Vorticity *)

(** the scalar the documentation defines: -v_x + u_y *)
Definition curl_at (u : vfield) (p : V) : R := - fst (s_gv (v_y u) p) + snd (s_gv (v_x u) p).
(** the velocity component along the facet does not jump *)
Definition tangential_continuous (u : vfield) : Prop :=
  forall f, In f (m_facets M) -> jump_vn M (perp_v u) f = 0.

(** The equation that is solved: the vorticity inside the cells, plus the vortex sheet of a
    tangential jump. *)
Theorem C63_vorticity_equation : forall u q, gauss_sv M q (perp_v u) ->
  vort_rhs M u q = dx M (fun p => curl_at u p * s_v q p)
                   - dS M (fun f => avg (s_f q f) * jump_vn M (perp_v u) f).
Proof.
  intros u q G. unfold gauss_sv, gauss in G. unfold vort_rhs.
  unfold dx, dS, ds in *. rewrite integral_plus in G.
  assert (E1 : integral (m_cells M) (m_wv M) (fun p => s_v q p * divv (perp_v u) p)
             = integral (m_cells M) (m_wv M) (fun p => curl_at u p * s_v q p)).
  { apply integral_ext. intros p _. unfold divv, curl_at, perp_v, scale_s, scal2. cbn. ring. }
  rewrite E1 in G.
  assert (E2 : integral (m_facets M) (m_wf M) (fun f => dot2 (avg_v (perp_v u) f) (jump_n M q f))
             = integral (m_facets M) (m_wf M) (fun f => s_f q f true * dot2 (vf (perp_v u) f true) (normal M f true)
                 + s_f q f false * dot2 (vf (perp_v u) f false) (normal M f false))
               - integral (m_facets M) (m_wf M) (fun f => avg (s_f q f) * jump_vn M (perp_v u) f)).
  { rewrite <- integral_minus. apply integral_ext. intros f _.
    unfold avg_v, jump_n, jump_vn, avg, dot2, vf, normal. cbn [fst snd].
    set (px := s_f (v_x (perp_v u)) f). set (py := s_f (v_y (perp_v u)) f). lra. }
  rewrite E2. lra.
Qed.

(** If the vorticity belongs to the space, it is recovered exactly. *)
Theorem C63_vorticity_exact : forall (space : sfield -> Prop) u w w0,
  positive_weights M ->
  (forall a b, space a -> space b -> space (sub_s a b)) ->
  (forall q, space q -> gauss_sv M q (perp_v u)) ->
  tangential_continuous u ->
  space w0 -> (forall p, In p (m_cells M) -> s_v w0 p = curl_at u p) ->
  vort_solution M space u w ->
  forall p, In p (m_cells M) -> s_v w p = curl_at u p.
Proof.
  intros space u w w0 (W & _ & _) CS G T S0 E0 [SW EQ] p Hp.
  assert (SD : space (sub_s w w0)) by (apply CS; assumption).
  pose proof (EQ _ SD) as E. rewrite C63_vorticity_equation in E by (apply G; exact SD).
  assert (J : dS M (fun f => avg (s_f (sub_s w w0) f) * jump_vn M (perp_v u) f) = 0).
  { apply dS_zero. intros f Hf. rewrite (T f Hf). ring. }
  rewrite J in E.
  assert (Z : integral (m_cells M) (m_wv M) (fun p => (s_v w p - s_v w0 p) * (s_v w p - s_v w0 p)) = 0).
  { unfold dx in E. transitivity (integral (m_cells M) (m_wv M) (fun p => s_v w p * s_v (sub_s w w0) p)
      - integral (m_cells M) (m_wv M) (fun p => curl_at u p * s_v (sub_s w w0) p)); [|lra].
    rewrite <- integral_minus. apply integral_ext. intros x Hx. rewrite <- (E0 x Hx). cbn [sub_s s_v]. ring. }
  pose proof (integral_zero_all _ _ _ W (fun x _ => Rle_0_sqr (s_v w x - s_v w0 x)) Z p Hp) as Q.
  cbn beta in Q. rewrite <- (E0 p Hp). apply Rmult_integral in Q. lra.
Qed.

(** The total vorticity is the circulation along the boundary, with the sign of the definition
    (the flow along the clockwise tangent (n_y, -n_x)), for every velocity, continuous or not. *)
Theorem C63_circulation : forall (space : sfield -> Prop) u w,
  space (const_s 1) -> vort_solution M space u w ->
  dx M (fun p => s_v w p) = ds M (fun b => dot2 (vb u b) (snd (m_nb M b), - fst (m_nb M b))).
Proof.
  intros space u w S1 [SW EQ]. specialize (EQ _ S1). unfold vort_rhs in EQ.
  rewrite (dx_zero M (fun p => dot2 (vv (perp_v u) p) (s_gv (const_s 1) p))) in EQ
    by (intros; apply dot2_zero_r).
  rewrite (dS_zero M (fun f => dot2 (avg_v (perp_v u) f) (jump_n M (const_s 1) f))) in EQ.
  2:{ intros f _. unfold jump_n, const_s, normal, dot2. cbn. ring. }
  transitivity (dx M (fun p => s_v w p * s_v (const_s (F := F) (B := B) 1) p)).
  { apply integral_ext. intros p _. cbn. ring. }
  rewrite EQ. rewrite Ropp_0, Rplus_0_l, Rplus_0_r. apply integral_ext. intros b _.
  unfold const_s, unb, dot2, vb, perp_v, scale_s. cbn. ring.
Qed.

(* ------------------------------------------------------------------ *)
(** * Gradient and Hessian *)

Theorem C63_gradient_exact : forall (space : vfield -> Prop) f g g0,
  positive_weights M ->
  (forall a b, space a -> space b -> space (sub_v a b)) ->
  space g0 -> (forall p, In p (m_cells M) -> vv g0 p = s_gv f p) ->
  grad_solution M space f g ->
  forall p, In p (m_cells M) -> vv g p = s_gv f p.
Proof.
  intros space f g g0 (W & _ & _) CS S0 E0 [SG EQ] p Hp.
  assert (SD : space (sub_v g g0)) by (apply CS; assumption).
  pose proof (EQ _ SD) as E.
  assert (Z : integral (m_cells M) (m_wv M) (fun p => dot2 (vv (sub_v g g0) p) (vv (sub_v g g0) p)) = 0).
  { unfold dx in E. transitivity (integral (m_cells M) (m_wv M) (fun p => dot2 (vv g p) (vv (sub_v g g0) p))
      - integral (m_cells M) (m_wv M) (fun p => dot2 (s_gv f p) (vv (sub_v g g0) p))); [|lra].
    rewrite <- integral_minus. apply integral_ext. intros x Hx. rewrite <- (E0 x Hx).
    unfold dot2, vv, sub_v, sub_s. cbn. ring. }
  pose proof (integral_zero_all _ _ _ W (fun x _ => dot2_self (vv (sub_v g g0) x)) Z p Hp) as Q.
  rewrite <- (E0 p Hp). apply dot2_zero_sub. exact Q.
Qed.

(** functions of a continuous space take the same value on both sides *)
Definition continuous_s (q : sfield) : Prop := forall f, In f (m_facets M) -> s_f q f true = s_f q f false.
Definition continuous_v (u : vfield) : Prop := continuous_s (v_x u) /\ continuous_s (v_y u).
(** the gradient of [u] at the cell points is the tensor [H] *)
Definition grad_is (u : vfield) (H : tfield) : Prop := forall p, In p (m_cells M) ->
  vv (fst H) p = s_gv (v_x u) p /\ vv (snd H) p = s_gv (v_y u) p.
(** a function of the space that vanishes at the quadrature points of the cells has no gradient *)
Definition determined (VS : vfield -> Prop) : Prop := forall d, VS d ->
  (forall p, In p (m_cells M) -> vv d p = (0, 0)) ->
  forall p, In p (m_cells M) -> s_gv (v_x d) p = (0, 0) /\ s_gv (v_y d) p = (0, 0).

Lemma hess_L_parts : forall f phi, gauss_sv M f phi -> continuous_s f ->
  hess_L M f phi = dx M (fun p => dot2 (vv phi p) (s_gv f p)).
Proof.
  intros f phi G C. unfold gauss_sv, gauss in G. unfold hess_L. unfold dx, dS, ds in *.
  rewrite integral_plus in G.
  assert (E : integral (m_facets M) (m_wf M) (fun e => avg (s_f f e) * jump_vn M phi e)
            = integral (m_facets M) (m_wf M) (fun e => s_f f e true * dot2 (vf phi e true) (normal M e true)
                 + s_f f e false * dot2 (vf phi e false) (normal M e false))).
  { apply integral_ext. intros e He. unfold avg, jump_vn. rewrite (C e He). lra. }
  rewrite E. lra.
Qed.
Lemma hess_a_parts : forall g H phi tau, continuous_v g ->
  gauss_sv M (v_x g) (fst tau) -> gauss_sv M (v_y g) (snd tau) ->
  hess_a M g H phi tau =
    dx M (fun p => dot2 (vv (fst tau) p) (sub2 (vv (fst H) p) (s_gv (v_x g) p))
                 + dot2 (vv (snd tau) p) (sub2 (vv (snd H) p) (s_gv (v_y g) p)))
    + dx M (fun p => dot2 (vv phi p) (vv g p)).
Proof.
  intros g H phi tau [CX CY] G1 G2. unfold gauss_sv, gauss in G1, G2. unfold hess_a. unfold dx, dS, ds in *.
  rewrite integral_plus in G1, G2. rewrite !integral_plus.
  assert (E : forall q u, continuous_s q ->
     integral (m_facets M) (m_wf M) (fun f => avg (s_f q f) * jump_vn M u f)
     = integral (m_facets M) (m_wf M) (fun e => s_f q e true * dot2 (vf u e true) (normal M e true)
                 + s_f q e false * dot2 (vf u e false) (normal M e false))).
  { intros q u C. apply integral_ext. intros e He. unfold avg, jump_vn. rewrite (C e He). lra. }
  rewrite (E _ _ CX), (E _ _ CY).
  assert (S : forall t h y : V -> R * R, integral (m_cells M) (m_wv M) (fun p => dot2 (t p) (sub2 (h p) (y p)))
     = integral (m_cells M) (m_wv M) (fun p => dot2 (t p) (h p)) - integral (m_cells M) (m_wv M) (fun p => dot2 (t p) (y p))).
  { intros t h y. rewrite <- integral_minus. apply integral_ext. intros p _. unfold dot2, sub2. cbn. ring. }
  rewrite (S (fun p => vv (fst tau) p) (fun p => vv (fst H) p) (fun p => s_gv (v_x g) p)).
  rewrite (S (fun p => vv (snd tau) p) (fun p => vv (snd H) p) (fun p => s_gv (v_y g) p)).
  assert (K : forall (d : V -> R) (q : V -> R), integral (m_cells M) (m_wv M) (fun p => d p * q p)
            = integral (m_cells M) (m_wv M) (fun p => q p * d p)).
  { intros d q. apply integral_ext. intros p _. ring. }
  rewrite (K (fun p => divv (fst tau) p) (fun p => s_v (v_x g) p)).
  rewrite (K (fun p => divv (snd tau) p) (fun p => s_v (v_y g) p)).
  lra.
Qed.

(** If the gradient of the field belongs to the vector space and its gradient to the tensor
    space, the double projection returns both exactly. *)
Theorem C63_hessian_exact : forall (VS : vfield -> Prop) (TS : tfield -> Prop) f g H g0 H0,
  positive_weights M ->
  (forall a b, VS a -> VS b -> VS (sub_v a b)) ->
  (forall a b, TS a -> TS b -> TS (sub_v (fst a) (fst b), sub_v (snd a) (snd b))) ->
  VS zero_v -> TS (zero_v, zero_v) -> determined VS ->
  (forall phi, VS phi -> continuous_v phi /\ gauss_sv M f phi) ->
  (forall phi tau, VS phi -> TS tau -> gauss_sv M (v_x phi) (fst tau) /\ gauss_sv M (v_y phi) (snd tau)) ->
  continuous_s f ->
  VS g0 -> (forall p, In p (m_cells M) -> vv g0 p = s_gv f p) ->
  TS H0 -> grad_is g0 H0 ->
  hess_solution M VS TS f g H ->
  forall p, In p (m_cells M) -> vv g p = s_gv f p /\
    vv (fst H) p = vv (fst H0) p /\ vv (snd H) p = vv (snd H0) p.
Proof.
  intros VS TS f g H g0 H0 W CV CT ZV ZT DT GF GT CF S0 E0 SH0 EH0 (SG & SH & EQ).
  assert (PW := proj1 W).
  (* the gradient *)
  assert (GS : grad_solution M VS f g).
  { split; [exact SG|]. intros phi Hphi. specialize (EQ phi (zero_v, zero_v) Hphi ZT).
    rewrite (hess_L_parts _ _ (proj2 (GF phi Hphi)) CF) in EQ.
    rewrite hess_a_parts in EQ; [|exact (proj1 (GF g SG))|apply (GT g (zero_v, zero_v) SG ZT)|apply (GT g (zero_v, zero_v) SG ZT)].
    rewrite (dx_zero M (fun p => dot2 (vv (fst (zero_v, zero_v)) p) _ + _)) in EQ.
    2:{ intros p _. unfold dot2, vv, zero_v, const_v, const_s. cbn. ring. }
    rewrite Rplus_0_l in EQ.
    transitivity (dx M (fun p => dot2 (vv phi p) (vv g p))); [apply integral_ext; intros; apply dot2_comm|].
    rewrite EQ. apply integral_ext; intros; apply dot2_comm. }
  assert (EG : forall p, In p (m_cells M) -> vv g p = s_gv f p)
    by (apply (C63_gradient_exact VS f g g0); assumption).
  (* gradients of g and g0 agree *)
  assert (D : forall p, In p (m_cells M) -> s_gv (v_x g) p = s_gv (v_x g0) p /\ s_gv (v_y g) p = s_gv (v_y g0) p).
  { intros p Hp. destruct (DT (sub_v g g0) (CV _ _ SG S0)) with (p := p) as [D1 D2]; [|exact Hp|].
    - intros x Hx. pose proof (EG x Hx) as A. pose proof (E0 x Hx) as C. rewrite <- A in C.
      unfold vv in C |- *. injection C as C1 C2. unfold sub_v, sub_s. cbn. rewrite C1, C2. f_equal; ring.
    - unfold sub_v, sub_s, sub2 in D1, D2. cbn in D1, D2. injection D1 as A1 A2. injection D2 as A3 A4.
      split; [rewrite (surjective_pairing (s_gv (v_x g) p)), (surjective_pairing (s_gv (v_x g0) p))
             |rewrite (surjective_pairing (s_gv (v_y g) p)), (surjective_pairing (s_gv (v_y g0) p))]; f_equal; lra. }
  (* the Hessian *)
  set (T := (sub_v (fst H) (fst H0), sub_v (snd H) (snd H0))).
  assert (ST : TS T) by (apply CT; assumption).
  pose proof (EQ zero_v T ZV ST) as E.
  rewrite (hess_L_parts _ _ (proj2 (GF zero_v ZV)) CF) in E.
  rewrite hess_a_parts in E; [|exact (proj1 (GF g SG))|apply (GT g T SG ST)|apply (GT g T SG ST)].
  rewrite (dx_zero M (fun p => dot2 (vv zero_v p) (vv g p))) in E by (intros; apply dot2_zero_l).
  rewrite (dx_zero M (fun p => dot2 (vv zero_v p) (s_gv f p))) in E by (intros; apply dot2_zero_l).
  rewrite Rplus_0_r in E.
  assert (Z : integral (m_cells M) (m_wv M) (fun p => dot2 (vv (fst T) p) (vv (fst T) p) + dot2 (vv (snd T) p) (vv (snd T) p)) = 0).
  { rewrite <- E. apply integral_ext. intros p Hp. destruct (D p Hp) as [D1 D2]. destruct (EH0 p Hp) as [H1 H2].
    rewrite D1, D2, <- H1, <- H2. unfold T, dot2, vv, sub_v, sub_s, sub2. cbn. ring. }
  assert (NN : forall x, In x (m_cells M) -> 0 <= dot2 (vv (fst T) x) (vv (fst T) x) + dot2 (vv (snd T) x) (vv (snd T) x)).
  { intros x _. pose proof (dot2_self (vv (fst T) x)). pose proof (dot2_self (vv (snd T) x)). lra. }
  intros p Hp. split; [apply EG; exact Hp|].
  pose proof (integral_zero_all _ _ _ PW NN Z p Hp) as Q. cbn beta in Q.
  pose proof (dot2_self (vv (fst T) p)) as Q1. pose proof (dot2_self (vv (snd T) p)) as Q2.
  assert (R1 : dot2 (vv (fst T) p) (vv (fst T) p) = 0) by lra. assert (R2 : dot2 (vv (snd T) p) (vv (snd T) p) = 0) by lra.
  split; apply dot2_zero_sub; assumption.
Qed.

(* ------------------------------------------------------------------ *)
(** * Kinetic energy *)

Theorem C63_kinetic_energy : forall rho u v w,
  ke_at rho false [u; v] = rho * (u ^ 2 + v ^ 2) / 2 /\
  ke_at rho false [u; v; w] = rho * (u ^ 2 + v ^ 2 + w ^ 2) / 2 /\
  ke_at rho true [u; v; w] = rho * (u ^ 2 + v ^ 2) / 2 /\
  (forall h uv, 0 <= rho -> 0 <= ke_at rho h uv) /\
  (forall uv, 0 <= rho -> (2 <= List.length uv)%nat -> ke_at rho true uv <= ke_at rho false uv).
Proof.
  intros rho u v w. unfold ke_at. cbn [nth fold_right].
  assert (N : forall l, 0 <= fold_right (fun c s => c * c + s) 0 l).
  { induction l as [|c l IH]; cbn; [lra|]. pose proof (Rle_0_sqr c) as S. unfold Rsqr in S. lra. }
  repeat split; try lra.
  - intros h uv H. apply Rmult_le_pos; [lra|]. destruct h; [|apply N].
    pose proof (Rle_0_sqr (nth 0 uv 0)) as S. pose proof (Rle_0_sqr (nth 1 uv 0)) as S'. unfold Rsqr in *. lra.
  - intros uv H L. apply Rmult_le_compat_l; [lra|]. destruct uv as [|a [|b r]]; cbn in L; try lia.
    cbn [nth fold_right]. pose proof (N r). lra.
Qed.

(* ------------------------------------------------------------------ *)
(** * Argument checks *)

Theorem C63_space_checks : forall dim c shape gradient,
  (check_vorticity dim c = Accepted <-> dim = 2%nat /\ c = "cg"%string) /\
  (check_hessian dim c shape gradient = Accepted <->
     dim = 2%nat /\ c = "cg"%string /\ shape = [2%nat; 2%nat] /\
     (gradient = None \/ gradient = Some ("cg"%string, [2%nat]))) /\
  (check_vorticity dim c = Accepted \/ check_vorticity dim c = ValueError) /\
  (check_hessian dim c shape gradient = Accepted \/ check_hessian dim c shape gradient = ValueError).
Proof.
  intros dim c shape gradient. unfold check_vorticity, check_hessian.
  destruct (Nat.eqb_spec dim 2) as [->|D]; cbn [negb].
  2:{ repeat split; try (intros; discriminate); try tauto. }
  destruct (String.eqb_spec c "cg") as [->|E]; cbn [negb].
  2:{ repeat split; try (intros; discriminate); try tauto. }
  assert (SH : (match shape with [2%nat; 2%nat] => true | _ => false end = true) <-> shape = [2%nat; 2%nat]).
  { split; [|intros ->; reflexivity].
    destruct shape as [|[|[|[|a]]] [|[|[|[|b]]] [|? ?]]]; cbn; intro H; try discriminate H; reflexivity. }
  destruct (match shape with [2%nat; 2%nat] => true | _ => false end) eqn:ES; cbn [negb].
  2:{ repeat split; try (intros; discriminate); try tauto. intros (_ & _ & Q & _). apply SH in Q. congruence. }
  pose proof (proj1 SH eq_refl) as ->.
  destruct gradient as [[gc gs]|].
  2:{ repeat split; auto; try tauto. }
  destruct (String.eqb_spec gc "cg") as [->|EG]; cbn [negb].
  2:{ repeat split; try (intros; discriminate); try tauto. intros (_ & _ & _ & [Q|Q]); [discriminate|congruence]. }
  assert (GS : (match gs with [2%nat] => true | _ => false end = true) <-> gs = [2%nat]).
  { split; [|intros ->; reflexivity].
    destruct gs as [|[|[|[|a]]] [|? ?]]; cbn; intro H; try discriminate H; reflexivity. }
  destruct (match gs with [2%nat] => true | _ => false end) eqn:EGS; cbn [negb].
  - pose proof (proj1 GS eq_refl) as ->. repeat split; auto; try tauto.
  - repeat split; try (intros; discriminate); try tauto.
    intros (_ & _ & _ & [Q|Q]); [discriminate|]. injection Q as Q. apply GS in Q. congruence.
Qed.
(** Error indication refuses other integrators and non-planar meshes; a dual on another mesh is
    meant to give ValueError but gives NameError. *)
Theorem C63_dwr_checks : forall stepper dim same,
  (check_dwr stepper dim same = Accepted <->
     (stepper = "SteadyState"%string \/ stepper = "CrankNicolson"%string) /\ dim = 2%nat /\ same = true).
Proof.
  intros stepper dim same. unfold check_dwr.
  assert (K : (String.eqb stepper "SteadyState" || String.eqb stepper "CrankNicolson")%bool = true <->
              (stepper = "SteadyState"%string \/ stepper = "CrankNicolson"%string)).
  { rewrite orb_true_iff, !String.eqb_eq. tauto. }
  destruct (String.eqb stepper "SteadyState" || String.eqb stepper "CrankNicolson")%bool; cbn [negb].
  2:{ split; [discriminate|]. intros (Q & _). apply K in Q. discriminate. }
  destruct (Nat.eqb_spec dim 2); cbn [negb]; [|split; [discriminate|tauto]].
  destruct same; cbn [negb]; split; try discriminate; tauto || (intros (_ & _ & Q); discriminate).
Qed.
Theorem C63_dwr_mesh_refuted : check_dwr "CrankNicolson" 2 false <> ValueError.
Proof. cbn. discriminate. Qed.
End P.

(* ------------------------------------------------------------------ *)
(** * Error indicators *)

Section Indicators.
Context {V F B : Type}.
Variable M : mesh V F B.
Variable O : owners (V := V) (F := F) (B := B).
Notation form0 := (form0 (V := V) (F := F) (B := B)).

(** the share of a cell: its own integrals, those over its part of the boundary and those over
    its facets *)
Definition share (A : form0) (K : nat) : R :=
  dx M (fun p => ind K (o_cell O p) * sum_forms (f_cell A) p)
  + ds M (fun b => ind K (o_bnd O b) * sum_forms (f_ext A) b)
  + dS M (fun f => (ind K (o_facet O f true) + ind K (o_facet O f false)) * sum_forms (f_int A) f).

Lemma fold_integral : forall X (l : list X) (w : X -> R) (k : R) (c : X -> R) (h : X -> R) (gs : list (X -> R)),
  (forall x, In x l -> h x = k * c x) ->
  fold_right (fun g s => integral l w (fun x => h x * g x) + s) 0 gs
  = k * integral l w (fun x => c x * sum_forms gs x).
Proof.
  intros X l w k c h gs E. induction gs as [|g gs IH]; cbn [fold_right].
  - rewrite integral_zero; [ring|]. intros x _. cbn. ring.
  - rewrite IH. rewrite <- !integral_scal. rewrite <- integral_plus. apply integral_ext.
    intros x Hx. cbn [sum_forms fold_right]. fold (sum_forms gs x). rewrite (E x Hx). ring.
Qed.
Lemma ind_volume : forall K c, volume M O c * ind K c = volume M O K * ind K c.
Proof. intros K c. unfold ind. destruct (Nat.eqb_spec c K) as [->|]; ring. Qed.

(** Every indicator is the share of its cell, independent of the size of the cell. *)
Theorem C63_indicator_share : forall A K, volume M O K <> 0 -> indicator M O A K = share A K.
Proof.
  intros A K HV. unfold indicator, ind_rhs, share.
  unfold ds, dS, dx.
  rewrite (fold_integral B _ _ (volume M O K) (fun b => ind K (o_bnd O b)) _ (f_ext A)) by (intros; apply ind_volume).
  rewrite (fold_integral V _ _ (volume M O K) (fun p => ind K (o_cell O p)) _ (f_cell A)) by (intros; apply ind_volume).
  assert (E : fold_right (fun g s =>
      integral (m_facets M) (m_wf M) (fun e => volume M O (o_facet O e true) * ind K (o_facet O e true) * g e)
      + integral (m_facets M) (m_wf M) (fun e => volume M O (o_facet O e false) * ind K (o_facet O e false) * g e) + s) 0 (f_int A)
    = volume M O K * integral (m_facets M) (m_wf M)
        (fun f => (ind K (o_facet O f true) + ind K (o_facet O f false)) * sum_forms (f_int A) f)).
  { induction (f_int A) as [|g gs IH]; cbn [fold_right].
    - rewrite integral_zero; [ring|]. intros x _. cbn. ring.
    - rewrite IH. rewrite <- !integral_plus. rewrite <- !integral_scal. rewrite <- integral_plus. apply integral_ext.
      intros x _. cbn [sum_forms fold_right]. fold (sum_forms gs x). rewrite !ind_volume. ring. }
  rewrite E. field. exact HV.
Qed.

Definition sum_over (cells : list nat) (e : nat -> R) : R := fold_right (fun K s => e K + s) 0 cells.
Lemma sum_ind : forall cells c, NoDup cells -> In c cells -> sum_over cells (fun K => ind K c) = 1.
Proof.
  intros cells c N. induction N as [|a l H N IH]; intro Hc; [destruct Hc|]. cbn [sum_over fold_right].
  fold (sum_over l (fun K => ind K c)). unfold ind at 1. destruct (Nat.eqb_spec c a) as [->|D].
  - assert (Z : sum_over l (fun K => ind K a) = 0).
    { clear -H. induction l as [|b l IH]; [reflexivity|]. cbn [sum_over fold_right]. fold (sum_over l (fun K => ind K a)).
      rewrite IH by (intro; apply H; right; assumption). unfold ind.
      destruct (Nat.eqb_spec a b) as [->|]; [exfalso; apply H; left; reflexivity|ring]. }
    rewrite Z. ring.
  - destruct Hc as [E|Hc]; [congruence|]. rewrite (IH Hc). ring.
Qed.
Lemma sum_over_integral : forall X (l : list X) w (c : nat -> X -> R) cells,
  sum_over cells (fun K => integral l w (c K)) = integral l w (fun x => sum_over cells (fun K => c K x)).
Proof.
  intros X l w c cells. induction cells as [|a r IH].
  - symmetry. apply integral_zero. reflexivity.
  - cbn [sum_over fold_right]. fold (sum_over r (fun K => integral l w (c K))). rewrite IH.
    rewrite <- integral_plus. apply integral_ext. reflexivity.
Qed.
Lemma sum_over_mult : forall cells (e : nat -> R) k, sum_over cells (fun K => e K * k) = sum_over cells e * k.
Proof. intros cells e k. induction cells as [|a r IH]; cbn; [ring|]. unfold sum_over in IH. rewrite IH. ring. Qed.
Lemma sum_over_plus : forall cells a b, sum_over cells (fun K => a K + b K) = sum_over cells a + sum_over cells b.
Proof. intros cells a b. induction cells as [|x r IH]; cbn; [ring|]. unfold sum_over in IH. rewrite IH. ring. Qed.
Lemma sum_over_ext : forall cells a b, (forall K, In K cells -> a K = b K) -> sum_over cells a = sum_over cells b.
Proof.
  intros cells a b H. induction cells as [|x r IH]; [reflexivity|]. cbn [sum_over fold_right].
  rewrite H by (left; reflexivity). f_equal. apply IH. intros. apply H. right. assumption.
Qed.

(** The indicators of all cells add up to the value of the form plus its interior facet
    integrals once more. *)
Theorem C63_indicator_total : forall A cells, NoDup cells ->
  (forall p, In (o_cell O p) cells) -> (forall b, In (o_bnd O b) cells) ->
  (forall f s, In (o_facet O f s) cells) -> (forall K, In K cells -> volume M O K <> 0) ->
  sum_over cells (indicator M O A) = value0 M A + dS M (sum_forms (f_int A)).
Proof.
  intros A cells N HC HB HF HV.
  rewrite (sum_over_ext _ _ (share A)) by (intros K HK; apply C63_indicator_share, HV, HK).
  unfold share. rewrite !sum_over_plus. unfold dx, ds, dS. rewrite !sum_over_integral.
  unfold value0, dx, ds, dS.
  rewrite (integral_ext (m_cells M) (m_wv M) _ (sum_forms (f_cell A))).
  2:{ intros p _. rewrite sum_over_mult, sum_ind by auto. ring. }
  rewrite (integral_ext (m_bnds M) (m_wb M) _ (sum_forms (f_ext A))).
  2:{ intros b _. rewrite sum_over_mult, sum_ind by auto. ring. }
  rewrite (integral_ext (m_facets M) (m_wf M) _ (fun f => 2 * sum_forms (f_int A) f)).
  2:{ intros f _. rewrite sum_over_mult, sum_over_plus, !sum_ind by auto. ring. }
  rewrite integral_scal. ring.
Qed.
(** So they add up to the value of the form when it has no interior facet terms. *)
Theorem C63_indicator_sum : forall A cells, NoDup cells -> f_int A = [] ->
  (forall p, In (o_cell O p) cells) -> (forall b, In (o_bnd O b) cells) ->
  (forall f s, In (o_facet O f s) cells) -> (forall K, In K cells -> volume M O K <> 0) ->
  sum_over cells (indicator M O A) = value0 M A.
Proof.
  intros A cells N E HC HB HF HV. rewrite C63_indicator_total by assumption. rewrite E.
  rewrite (dS_zero M (sum_forms [])) by reflexivity. ring.
Qed.
End Indicators.

(* ------------------------------------------------------------------ *)
(** * Concrete cases *)

Definition two_owners : owners (V := nat) (F := nat) (B := nat) :=
  mk_own (fun p => match p with O => 0 | _ => 1 end)%nat (fun b => fst (fst (edge b)))
         (fun _ s => if s then 0 else 1)%nat.

(** The claim "the indicators are the cell-wise contributions: they add up to the functional" is
    false for a discontinuous method. *)
Theorem C63_indicator_sum_refuted : exists A : form0 (V := nat) (F := nat) (B := nat),
  sum_over [0; 1]%nat (indicator two_cells two_owners A) <> value0 two_cells A.
Proof.
  exists (mk_form [] [] [fun _ => 1]).
  rewrite C63_indicator_total.
  - unfold value0, dx, ds, dS, integral, sum_forms. cbn. lra.
  - repeat constructor; cbn; lia.
  - intros [|p]; cbn; auto.
  - intros b. cbn. unfold edge. repeat (destruct b as [|b]; cbn; auto).
  - intros f [|]; cbn; auto.
  - intros K [<-|[<-|[]]]; unfold volume, dx, integral, ind; cbn; lra.
Qed.

(** Rigid rotation with angular velocity 3: the recovered vorticity is -6 everywhere. *)
Definition is_const (c : R) (q : sfield nat nat nat) : Prop :=
  (forall p, s_v q p = c) /\ (forall p, s_gv q p = (0, 0)) /\ (forall f s, s_f q f s = c) /\ (forall b, s_b q b = c).
Definition const_space (q : sfield nat nat nat) : Prop := exists c, is_const c q.
Definition rigid : vfield nat nat nat :=
  mk_vf (affine (fun _ => 0) (fun _ => 0) (fun _ => -3)) (affine (two 0 3) (fun _ => 3) (fun _ => 0)).
Lemma const_sub : forall a b, const_space a -> const_space b -> const_space (sub_s a b).
Proof.
  intros a b (c & A1 & A2 & A3 & A4) (d & B1 & B2 & B3 & B4). exists (c - d).
  unfold is_const, sub_s, sub2. cbn. repeat split; intros.
  - rewrite A1, B1. reflexivity.
  - rewrite A2, B2. cbn. f_equal; lra.
  - rewrite A3, B3. reflexivity.
  - rewrite A4, B4. reflexivity.
Qed.
Lemma p0_const : forall c, is_const c (p0 (fun _ => c)).
Proof.
  intros c. unfold is_const, p0, affine. cbn. repeat split; intros; try destruct s; try lra.
Qed.
Lemma const_gauss : forall c q u, is_const c q -> gauss_v two_cells u -> gauss_sv two_cells q u.
Proof.
  intros c q u (A1 & A2 & A3 & A4) G. unfold gauss_sv, gauss_v, gauss in *. unfold dx, dS, ds in *.
  rewrite (integral_ext _ _ _ (fun p => c * divv u p)).
  2:{ intros p _. rewrite A1, A2, dot2_zero_r. ring. }
  rewrite (integral_ext (m_facets two_cells) _ _ (fun f => c * (dot2 (vf u f true) (normal two_cells f true) + dot2 (vf u f false) (normal two_cells f false)))).
  2:{ intros f _. rewrite !A3. ring. }
  rewrite (integral_ext (m_bnds two_cells) _ _ (fun b => c * unb two_cells u b)).
  2:{ intros b _. rewrite A4. ring. }
  rewrite !integral_scal. rewrite G. ring.
Qed.
Lemma rigid_gauss : gauss_v two_cells (perp_v rigid).
Proof.
  unfold gauss_v, gauss, dx, dS, ds, integral, divv, unb, dot2, vf, vb, normal, perp_v, rigid, scale_s, scal2, affine, edge, two.
  cbn -[Rplus Rmult Rminus Rdiv Ropp IZR]. field.
Qed.
Example ex_vorticity : (exists w, vort_solution two_cells const_space rigid w) /\
  forall w, vort_solution two_cells const_space rigid w ->
  forall p, In p (m_cells two_cells) -> s_v w p = -6.
Proof.
  assert (C : forall p, curl_at rigid p = -6). { intro p. unfold curl_at, rigid. cbn. lra. }
  assert (G : forall q, const_space q -> gauss_sv two_cells q (perp_v rigid)).
  { intros q [c Hc]. apply (const_gauss c); [exact Hc|exact rigid_gauss]. }
  assert (T : tangential_continuous two_cells rigid).
  { intros f _. unfold jump_vn, dot2, vf, normal, perp_v, rigid, scale_s, affine, two. cbn -[Rplus Rmult Rminus Rdiv Ropp IZR]. field. }
  split.
  - exists (p0 (fun _ => -6)). split; [exists (-6); apply p0_const|]. intros q Hq.
    rewrite C63_vorticity_equation by (apply G; exact Hq).
    rewrite (dS_zero two_cells (fun f => _ * jump_vn _ _ f)) by (intros f Hf; rewrite (T f Hf); ring).
    rewrite Rminus_0_r. apply integral_ext. intros p _. rewrite C. reflexivity.
  - intros w H p Hp. rewrite <- (C p).
    apply (C63_vorticity_exact two_cells const_space rigid w (p0 (fun _ => -6)));
      [exact two_weights|exact const_sub|exact G|exact T|exists (-6); apply p0_const| |exact H|exact Hp].
    intros x _. rewrite C. reflexivity.
Qed.

(** The plane 1 + 2x + 3y: gradient (2, 3), Hessian zero. *)
Definition plane : sfield nat nat nat := affine (two 1 3) (fun _ => 2) (fun _ => 3).
Definition const_vectors (u : vfield nat nat nat) : Prop := const_space (v_x u) /\ const_space (v_y u).
Definition const_tensors (t : vfield nat nat nat * vfield nat nat nat) : Prop := const_vectors (fst t) /\ const_vectors (snd t).
Lemma const_zero : const_space (const_s 0).
Proof. exists 0. unfold is_const, const_s. cbn. auto. Qed.
Lemma plane_gauss : forall u, const_vectors u -> gauss_sv two_cells plane u.
Proof.
  intros u ((c & A1 & A2 & A3 & A4) & (d & B1 & B2 & B3 & B4)).
  unfold gauss_sv, gauss, dx, dS, ds, integral, divv, unb, dot2, vf, vb, vv, normal, plane, affine, edge, two.
  cbn -[Rplus Rmult Rminus Rdiv Ropp IZR]. rewrite ?A1, ?A2, ?A3, ?A4, ?B1, ?B2, ?B3, ?B4. cbn -[Rplus Rmult Rminus Rdiv Ropp IZR]. field.
Qed.
Lemma constv_gauss : forall u, const_vectors u -> gauss_v two_cells u.
Proof.
  intros u ((c & A1 & A2 & A3 & A4) & (d & B1 & B2 & B3 & B4)).
  unfold gauss_v, gauss, dx, dS, ds, integral, divv, unb, dot2, vf, vb, vv, normal, edge.
  cbn -[Rplus Rmult Rminus Rdiv Ropp IZR]. rewrite ?A2, ?A3, ?A4, ?B2, ?B3, ?B4. cbn -[Rplus Rmult Rminus Rdiv Ropp IZR]. field.
Qed.
Example ex_hessian : forall g H, hess_solution two_cells const_vectors const_tensors plane g H ->
  forall p, In p (m_cells two_cells) ->
    vv g p = (2, 3) /\ vv (fst H) p = (0, 0) /\ vv (snd H) p = (0, 0).
Proof.
  intros g H S p Hp.
  assert (CC : forall q, const_space q -> continuous_s two_cells q).
  { intros q (c & _ & _ & A & _) f _. rewrite !A. reflexivity. }
  apply (C63_hessian_exact two_cells const_vectors const_tensors plane g H
           (mk_vf (p0 (fun _ => 2)) (p0 (fun _ => 3))) (zero_v, zero_v)); try exact Hp; try exact S.
  - exact two_weights.
  - intros a b [A1 A2] [B1 B2]. split; apply const_sub; assumption.
  - intros a b [[A1 A2] [A3 A4]] [[B1 B2] [B3 B4]]. split; split; apply const_sub; assumption.
  - split; apply const_zero.
  - split; split; apply const_zero.
  - intros d ((c & _ & A & _) & (e & _ & C & _)) _ x _. split; auto.
  - intros phi Hphi. split; [split; apply CC; apply Hphi|apply plane_gauss; exact Hphi].
  - intros phi tau [[c Hc] [d Hd]] [T1 T2]. split; [apply (const_gauss c)|apply (const_gauss d)]; auto using constv_gauss.
  - intros f _. unfold plane, affine, two. cbn. lra.
  - split; [exists 2|exists 3]; apply p0_const.
  - intros x _. reflexivity.
  - split; split; apply const_zero.
  - intros x _. split; reflexivity.
Qed.

Print Assumptions C63_vorticity_exact.
Print Assumptions C63_hessian_exact.
Print Assumptions C63_indicator_total.
