(** C89: lemmas about changes of axes, sides and order. *)
From Coq Require Import Reals List Bool Lra Permutation FunctionalExtensionality.
From Verif Require Import Forms_Model Forms_Spec Forms_Proofs Galerkin_Model Frame_Spec.
Open Scope R_scope.

Section Vectors.
Variable Q : axes.
Hypothesis HQ : orthogonal Q.

Lemma pair_ext : forall (a b : R * R), fst a = fst b -> snd a = snd b -> a = b.
Proof. intros [a1 a2] [b1 b2]; cbn; intros -> ->; reflexivity. Qed.

Lemma act_dot : forall a b, dot2 (act Q a) (act Q b) = dot2 a b.
Proof.
  destruct HQ as (H1 & H2 & H3). intros [a1 a2] [b1 b2]. unfold dot2, act; cbn [fst snd].
  replace ((qa Q * a1 + qb Q * a2) * (qa Q * b1 + qb Q * b2) + (qc Q * a1 + qd Q * a2) * (qc Q * b1 + qd Q * b2))
    with ((qa Q * qa Q + qc Q * qc Q) * (a1 * b1) + (qb Q * qb Q + qd Q * qd Q) * (a2 * b2)
          + (qa Q * qb Q + qc Q * qd Q) * (a1 * b2 + a2 * b1)) by ring.
  rewrite H1, H2, H3. ring.
Qed.
Lemma act_back : forall a, act (transpose Q) (act Q a) = a.
Proof.
  destruct HQ as (H1 & H2 & H3). intros [a1 a2]. unfold act, transpose; cbn [fst snd qa qb qc qd]. f_equal.
  - replace (qa Q * (qa Q * a1 + qb Q * a2) + qc Q * (qc Q * a1 + qd Q * a2))
      with ((qa Q * qa Q + qc Q * qc Q) * a1 + (qa Q * qb Q + qc Q * qd Q) * a2) by ring. rewrite H1, H3. ring.
  - replace (qb Q * (qa Q * a1 + qb Q * a2) + qd Q * (qc Q * a1 + qd Q * a2))
      with ((qb Q * qb Q + qd Q * qd Q) * a2 + (qa Q * qb Q + qc Q * qd Q) * a1) by ring. rewrite H2, H3. ring.
Qed.
Lemma act_add : forall a b, add2 (act Q a) (act Q b) = act Q (add2 a b).
Proof. intros [a1 a2] [b1 b2]. apply pair_ext; cbn; ring. Qed.
Lemma act_sub : forall a b, sub2 (act Q a) (act Q b) = act Q (sub2 a b).
Proof. intros [a1 a2] [b1 b2]. apply pair_ext; cbn; ring. Qed.
Lemma act_scal : forall k a, scal2 k (act Q a) = act Q (scal2 k a).
Proof. intros k [a1 a2]. apply pair_ext; cbn; ring. Qed.
Lemma act_det : forall a b,
  det Q * (- snd (act Q a) * fst (act Q b) + fst (act Q a) * snd (act Q b)) = - snd a * fst b + fst a * snd b.
Proof.
  destruct HQ as (H1 & H2 & H3). intros [a1 a2] [b1 b2]. unfold act; cbn [fst snd].
  assert (D : det Q * det Q = 1).
  { unfold det. replace ((qa Q * qd Q - qb Q * qc Q) * (qa Q * qd Q - qb Q * qc Q))
      with ((qa Q * qa Q + qc Q * qc Q) * (qb Q * qb Q + qd Q * qd Q)
            - (qa Q * qb Q + qc Q * qd Q) * (qa Q * qb Q + qc Q * qd Q)) by ring.
    rewrite H1, H2, H3. ring. }
  transitivity (det Q * det Q * (- a2 * b1 + a1 * b2)); [unfold det; ring|]. rewrite D. ring.
Qed.

(** tensors: components on the new axes *)
Definition conj (t : tensor) : tensor :=
  (add2 (scal2 (qa Q) (act Q (fst t))) (scal2 (qb Q) (act Q (snd t))),
   add2 (scal2 (qc Q) (act Q (fst t))) (scal2 (qd Q) (act Q (snd t)))).
Lemma tensor_ext : forall a b : tensor, fst (fst a) = fst (fst b) -> snd (fst a) = snd (fst b) ->
  fst (snd a) = fst (snd b) -> snd (snd a) = snd (snd b) -> a = b.
Proof. intros [[a b] [c d]] [[a' b'] [c' d']]; cbn; intros -> -> -> ->; reflexivity. Qed.
Lemma conj_add : forall a b, add_t (conj a) (conj b) = conj (add_t a b).
Proof. intros [[a b] [c d]] [[a' b'] [c' d']]. apply tensor_ext; cbn; ring. Qed.
Lemma conj_scal : forall k a, scal_t k (conj a) = conj (scal_t k a).
Proof. intros k [[a b] [c d]]. apply tensor_ext; cbn; ring. Qed.
Lemma conj_sym : forall a, sym_t (conj a) = conj (sym_t a).
Proof. intros [[a b] [c d]]. apply tensor_ext; cbn; try ring; replace 0.5 with (1 / 2) by lra; field. Qed.
Lemma conj_outer : forall a b, outer (act Q a) (act Q b) = conj (outer a b).
Proof. intros [a1 a2] [b1 b2]. apply tensor_ext; cbn; ring. Qed.
Lemma conj_dot : forall a t,
  (dot2 (act Q a) (fst (conj t)), dot2 (act Q a) (snd (conj t))) = act Q (dot2 a (fst t), dot2 a (snd t)).
Proof.
  intros a t. unfold conj; cbn [fst snd]. rewrite !act_scal, !act_add, !act_dot.
  unfold act; cbn [fst snd]. apply pair_ext; cbn; unfold dot2, add2, scal2; cbn; ring.
Qed.
Lemma conj_trace : forall t, fst (fst (conj t)) + snd (snd (conj t)) = fst (fst t) + snd (snd t).
Proof.
  destruct HQ as (H1 & H2 & H3). intros [[a b] [c d]]. unfold conj, act, add2, scal2; cbn [fst snd].
  transitivity ((qa Q * qa Q + qc Q * qc Q) * a + (qa Q * qb Q + qc Q * qd Q) * (b + c) + (qb Q * qb Q + qd Q * qd Q) * d); [ring|].
  rewrite H1, H2, H3. ring.
Qed.
Lemma conj_inner : forall a b, inner_t (conj a) (conj b) = inner_t a b.
Proof.
  destruct HQ as (H1 & H2 & H3).
  intros [a1 a2] [b1 b2]. unfold inner_t, conj; cbn [fst snd]. rewrite !act_scal, !act_add, !act_dot.
  unfold dot2, add2, scal2; cbn [fst snd].
  transitivity ((qa Q * qa Q + qc Q * qc Q) * (fst a1 * fst b1 + snd a1 * snd b1)
    + (qa Q * qb Q + qc Q * qd Q) * (fst a1 * fst b2 + fst a2 * fst b1 + snd a1 * snd b2 + snd a2 * snd b1)
    + (qb Q * qb Q + qd Q * qd Q) * (fst a2 * fst b2 + snd a2 * snd b2)); [ring|].
  rewrite H1, H2, H3. ring.
Qed.
Lemma conj_vec : forall a t, vec_t (act Q a) (conj t) = act Q (vec_t a t).
Proof.
  destruct HQ as (H1 & H2 & H3). intros [a1 a2] [[t1 t2] [t3 t4]].
  transitivity (add2 (act Q (scal2 ((qa Q * qa Q + qc Q * qc Q) * a1 + (qa Q * qb Q + qc Q * qd Q) * a2) (t1, t2)))
                     (act Q (scal2 ((qa Q * qb Q + qc Q * qd Q) * a1 + (qb Q * qb Q + qd Q * qd Q) * a2) (t3, t4)))).
  - apply pair_ext; cbn; ring.
  - rewrite H1, H2, H3. apply pair_ext; cbn; ring.
Qed.
End Vectors.

Lemma integral_perm {X} : forall (l l' : list X) wt g, Permutation l l' -> integral l wt g = integral l' wt g.
Proof.
  intros l l' wt g H. unfold integral. induction H; cbn [fold_right]; [reflexivity|rewrite IHPermutation; reflexivity|ring|].
  rewrite IHPermutation1. exact IHPermutation2.
Qed.
Lemma integral_both {X} : forall (l l' : list X) wt g h, Permutation l' l -> (forall x, In x l -> g x = h x) ->
  integral l' wt g = integral l wt h.
Proof. intros l l' wt g h HP H. rewrite (integral_perm l' l) by exact HP. apply integral_ext, H. Qed.

Section Frame.
Context {V F B : Type}.
Variable w : view V F B.
Hypothesis Hw : proper w.
Notation Q := (w_q w).
Notation tv := (turn_v w).
Notation ts := (turn_s w).

Lemma HQ : orthogonal Q. Proof. exact (proj1 Hw). Qed.
Local Hint Resolve HQ : core.

(** ** Functions *)
Lemma turn_vv : forall u p, vv (tv u) p = act Q (vv u p).
Proof. intros. reflexivity. Qed.
Lemma turn_vf : forall u f s, vf (tv u) f s = act Q (vf u f (old w f s)).
Proof. intros. reflexivity. Qed.
Lemma turn_vb : forall u b, vb (tv u) b = act Q (vb u b).
Proof. intros. reflexivity. Qed.
Lemma turn_gradv : forall u p, grad_v (tv u) p = conj Q (grad_v u p).
Proof. intros. reflexivity. Qed.
Lemma turn_gradf : forall u f s, grad_f (tv u) f s = conj Q (grad_f u f (old w f s)).
Proof. intros. reflexivity. Qed.
Lemma turn_gradb : forall u b, grad_b (tv u) b = conj Q (grad_b u b).
Proof. intros. reflexivity. Qed.
Lemma turn_div : forall u p, divv (tv u) p = divv u p.
Proof. intros u p. exact (conj_trace Q HQ (grad_v u p)). Qed.
Lemma turn_normal : forall M f s, normal (turn_mesh w M) f s = act Q (normal M f (old w f s)).
Proof.
  intros M f s. unfold normal at 1. cbn [turn_mesh m_nf]. unfold old.
  destruct s; [reflexivity|]. destruct (w_swap w f); cbn [xorb normal]; apply pair_ext; cbn; ring.
Qed.
Lemma turn_nb : forall M b, m_nb (turn_mesh w M) b = act Q (m_nb M b).
Proof. reflexivity. Qed.

Lemma old_avg : forall (g : bool -> R) f, avg (fun s => g (old w f s)) = avg g.
Proof. intros g f. unfold avg, old. destruct (w_swap w f); cbn; ring. Qed.
Lemma old_jump2 : forall (g h : bool -> R) f,
  jump (fun s => g (old w f s)) * jump (fun s => h (old w f s)) = jump g * jump h.
Proof. intros g h f. unfold jump, old. destruct (w_swap w f); cbn; ring. Qed.
Lemma old_both : forall (g : bool -> R) f, g (old w f true) + g (old w f false) = g true + g false.
Proof. intros g f. unfold old. destruct (w_swap w f); cbn; ring. Qed.
Lemma old_add : forall (g : bool -> R * R) f, add2 (g (old w f true)) (g (old w f false)) = add2 (g true) (g false).
Proof. intros g f. unfold old. destruct (w_swap w f); apply pair_ext; cbn; ring. Qed.
Lemma old_addt : forall (g : bool -> tensor) f, add_t (g (old w f true)) (g (old w f false)) = add_t (g true) (g false).
Proof. intros g f. unfold old. destruct (w_swap w f); apply tensor_ext; cbn; ring. Qed.

Lemma turn_avg_s : forall q f, avg (s_f (ts q) f) = avg (s_f q f).
Proof. intros. exact (old_avg (s_f q f) f). Qed.
Lemma turn_avg_v : forall u f, avg_v (tv u) f = act Q (avg_v u f).
Proof.
  intros u f. unfold avg_v, avg, turn_v, turn_s, old; cbn [v_x v_y add_s scale_s s_f].
  destruct (w_swap w f); apply pair_ext; cbn; ring.
Qed.
Lemma jump_n_add : forall (M : mesh V F B) q f, jump_n M q f = add2 (scal2 (s_f q f true) (normal M f true)) (scal2 (s_f q f false) (normal M f false)).
Proof. reflexivity. Qed.
Lemma turn_jump_n : forall M q f, jump_n (turn_mesh w M) (ts q) f = act Q (jump_n M q f).
Proof.
  intros M q f. rewrite !jump_n_add, !turn_normal. cbn [turn_s s_f]. rewrite !act_scal, act_add. f_equal.
  exact (old_add (fun s => scal2 (s_f q f s) (normal M f s)) f).
Qed.
Lemma turn_jump_vn : forall M u f, jump_vn (turn_mesh w M) (tv u) f = jump_vn M u f.
Proof.
  intros M u f. unfold jump_vn. rewrite !turn_vf, !turn_normal, !(act_dot Q HQ).
  exact (old_both (fun s => dot2 (vf u f s) (normal M f s)) f).
Qed.
Lemma turn_unb : forall M u b, unb (turn_mesh w M) (tv u) b = unb M u b.
Proof. intros M u b. unfold unb. rewrite turn_vb, turn_nb. apply act_dot, HQ. Qed.

(** ** Integrals *)
Lemma turn_dx : forall M g h, (forall p, In p (m_cells M) -> g p = h p) -> dx (turn_mesh w M) g = dx M h.
Proof. intros M g h H. apply (integral_both (m_cells M)); [apply Hw|exact H]. Qed.
Lemma turn_dS : forall M g h, (forall f, In f (m_facets M) -> g f = h f) -> dS (turn_mesh w M) g = dS M h.
Proof. intros M g h H. apply (integral_both (m_facets M)); [apply Hw|exact H]. Qed.
Lemma turn_ds : forall M g h, (forall b, In b (m_bnds M) -> g b = h b) -> ds (turn_mesh w M) g = ds M h.
Proof. intros M g h H. apply (integral_both (m_bnds M)); [apply Hw|exact H]. Qed.

(** ** Shallow water terms *)
Variable E : swe_env V F B.
Notation E' := (turn_env w E).
Notation M := (e_mesh E).

Lemma turn_hv : forall eta p, hv E' (ts eta) p = hv E eta p.
Proof. reflexivity. Qed.
Lemma turn_hf : forall eta f, avg (hf E' (ts eta) f) = avg (hf E eta f).
Proof. intros eta f. exact (old_avg (hf E eta f) f). Qed.
Lemma turn_hb : forall eta b, hb E' eta b = hb E eta b.
Proof. reflexivity. Qed.
Lemma turn_eta_ext : forall e eta b, eta_ext (turn_ext w e) eta b = eta_ext e eta b.
Proof. reflexivity. Qed.
Lemma turn_uv_ext : forall e eta (u u' : B -> R * R) b, u' b = act Q (u b) ->
  uv_ext E' (turn_ext w e) eta u' b = act Q (uv_ext E e eta u b).
Proof.
  intros e eta u u' b Hu. unfold uv_ext. cbn [turn_ext ex_uv]. destruct (ex_uv e); cbn [turn_uvext].
  - exact Hu.
  - reflexivity.
  - apply pair_ext; cbn; ring.
  - change (hb E' (eta_ext (turn_ext w e) eta) b) with (hb E (eta_ext e eta) b).
    cbn [turn_env e_mesh e_len]. rewrite turn_nb. cbn [turn_mesh m_marker]. apply pair_ext; cbn; ring.
Qed.
Lemma turn_uv_ext_v : forall e eta u b,
  uv_ext E' (turn_ext w e) (s_b (ts eta)) (vb (tv u)) b = act Q (uv_ext E e (s_b eta) (vb u) b).
Proof. intros. apply turn_uv_ext. apply turn_vb. Qed.

Ltac mesh := change (e_mesh E') with (turn_mesh w M).
Ltac at_bnd b := cbn [turn_env e_bnd e_mesh turn_mesh m_marker]; destruct (e_bnd E (m_marker M b)) as [|e]; cbn [turn_bnd].

Lemma turn_pressure : forall psi uv eta eta_old,
  pressure_gradient E' (tv psi) (tv uv) (ts eta) (ts eta_old) = pressure_gradient E psi uv eta eta_old.
Proof.
  intros psi uv eta eta_old. unfold pressure_gradient. mesh. change (e_eta_dg E') with (e_eta_dg E). change (e_g E') with (e_g E).
  destruct (e_eta_dg E).
  - do 2 f_equal; [f_equal|].
    + f_equal. apply turn_dx. intros p _. rewrite turn_div. reflexivity.
    + f_equal. apply turn_dS. intros f _. rewrite turn_avg_s, turn_hf, !turn_jump_vn. reflexivity.
    + f_equal. apply turn_ds. intros b _. at_bnd b.
      * rewrite !turn_unb. reflexivity.
      * rewrite turn_uv_ext_v, turn_vb, act_sub. change (m_nb (turn_mesh w M) b) with (act Q (m_nb M b)).
        rewrite turn_unb, (act_dot Q HQ). reflexivity.
  - do 2 f_equal.
    + f_equal. apply turn_dx. intros p _. rewrite turn_vv. cbn [turn_s s_gv]. apply act_dot, HQ.
    + f_equal. apply turn_ds. intros b _. at_bnd b; [reflexivity|].
      rewrite turn_uv_ext_v, turn_vb, act_sub. change (m_nb (turn_mesh w M) b) with (act Q (m_nb M b)).
      rewrite turn_unb, (act_dot Q HQ). reflexivity.
Qed.

Lemma turn_hu_flux : forall uv eta uv_old eta_old e b,
  hu_flux_b E' (tv uv) (ts eta) (tv uv_old) (ts eta_old) (turn_ext w e) b = hu_flux_b E uv eta uv_old eta_old e b.
Proof.
  intros. unfold hu_flux_b. mesh. rewrite turn_nb, !turn_uv_ext_v, !turn_vb, act_add, act_sub, !(act_dot Q HQ). reflexivity.
Qed.

Lemma turn_hu_div : forall phi uv eta uv_old eta_old dh,
  hu_div E' (ts phi) (tv uv) (ts eta) (tv uv_old) (ts eta_old) dh = hu_div E phi uv eta uv_old eta_old dh.
Proof.
  intros. unfold hu_div. mesh. change (e_u_jump E') with (e_u_jump E). change (e_eta_dg E') with (e_eta_dg E).
  change (e_g E') with (e_g E). destruct (e_u_jump E).
  - do 2 f_equal; [f_equal|].
    + f_equal. apply turn_dx. intros p _. rewrite turn_vv, act_scal. apply act_dot, HQ.
    + destruct (e_eta_dg E); [|reflexivity]. apply turn_dS. intros f _.
      rewrite turn_hf, turn_avg_v, !turn_jump_n, !act_scal, act_add, act_scal. apply act_dot, HQ.
    + apply turn_ds. intros b _. at_bnd b; [reflexivity|]. rewrite turn_hu_flux. reflexivity.
  - do 2 f_equal.
    + apply turn_dx. reflexivity.
    + apply turn_ds. intros b _. at_bnd b.
      * rewrite turn_unb. reflexivity.
      * cbn [turn_ext ex_un]. destruct (ex_un e); [|reflexivity]. rewrite turn_unb. reflexivity.
Qed.

Lemma jump_pair : forall (psi uv : vfield V F B) f,
  jump (s_f (v_x psi) f) * jump (s_f (v_x uv) f) + jump (s_f (v_y psi) f) * jump (s_f (v_y uv) f)
  = dot2 (sub2 (vf psi f true) (vf psi f false)) (sub2 (vf uv f true) (vf uv f false)).
Proof. reflexivity. Qed.
Lemma turn_jump_pair : forall psi uv f,
  jump (s_f (v_x (tv psi)) f) * jump (s_f (v_x (tv uv)) f) + jump (s_f (v_y (tv psi)) f) * jump (s_f (v_y (tv uv)) f)
  = jump (s_f (v_x psi) f) * jump (s_f (v_x uv) f) + jump (s_f (v_y psi) f) * jump (s_f (v_y uv) f).
Proof.
  intros. rewrite !jump_pair, !turn_vf, !act_sub, (act_dot Q HQ). unfold old. destruct (w_swap w f); cbn; unfold dot2, sub2; cbn; ring.
Qed.
Lemma turn_abs_un : forall uv f,
  Rabs (dot2 (avg_v (tv uv) f) (normal (turn_mesh w M) f false)) = Rabs (dot2 (avg_v uv f) (normal M f false)).
Proof.
  intros uv f. rewrite turn_avg_v, turn_normal, (act_dot Q HQ). unfold old. destruct (w_swap w f); cbn [xorb]; [|reflexivity].
  rewrite <- Rabs_Ropp. f_equal. unfold dot2, normal; cbn; ring.
Qed.

Lemma turn_advection : forall psi uv eta uv_old eta_old,
  advection E' (tv psi) (tv uv) (ts eta) (tv uv_old) (ts eta_old) = advection E psi uv eta uv_old eta_old.
Proof.
  intros. unfold advection. mesh. change (e_nonlinear E') with (e_nonlinear E). change (e_u_jump E') with (e_u_jump E).
  change (e_lax E') with (e_lax E). change (e_g E') with (e_g E).
  destruct (e_nonlinear E); [|reflexivity]. do 2 f_equal; [f_equal|].
  - f_equal. apply turn_dx. intros p _. rewrite turn_div, !turn_vv.
    set (d := divv uv_old p). set (a := vv uv_old p).
    change (s_gv (v_x (tv psi)) p) with (fst (conj Q (grad_v psi p))).
    change (s_gv (v_y (tv psi)) p) with (snd (conj Q (grad_v psi p))).
    replace (s_v (v_x (tv psi)) p * d + dot2 (act Q a) (fst (conj Q (grad_v psi p))),
             s_v (v_y (tv psi)) p * d + dot2 (act Q a) (snd (conj Q (grad_v psi p))))
      with (add2 (scal2 d (act Q (vv psi p)))
                 (dot2 (act Q a) (fst (conj Q (grad_v psi p))), dot2 (act Q a) (snd (conj Q (grad_v psi p))))).
    2:{ apply pair_ext; cbn [add2 fst snd scal2]; rewrite <- turn_vv; cbn [vv fst snd]; ring. }
    rewrite (conj_dot Q HQ), act_scal, act_add, (act_dot Q HQ). f_equal.
    apply pair_ext; cbn; ring.
  - destruct (e_u_jump E); [|reflexivity]. f_equal.
    + apply turn_dS. intros f _. rewrite turn_avg_v, !turn_vf, !turn_normal, !(act_dot Q HQ), !act_scal, act_add, (act_dot Q HQ).
      f_equal. exact (old_add (fun s => scal2 (dot2 (vf uv_old f s) (normal M f s)) (vf psi f s)) f).
    + destruct (e_lax E) as [lf|]; [|reflexivity]. f_equal.
      * apply turn_dS. intros f _. rewrite turn_abs_un, turn_jump_pair. reflexivity.
      * apply turn_ds. intros b _. at_bnd b; [|reflexivity].
        rewrite !turn_unb, !turn_vb. change (m_nb (turn_mesh w M) b) with (act Q (m_nb M b)).
        rewrite act_scal, !act_sub, (act_dot Q HQ). reflexivity.
  - apply turn_ds. intros b _. at_bnd b; [reflexivity|].
    rewrite !turn_uv_ext_v, !turn_vb, !act_add, act_scal. change (m_nb (turn_mesh w M) b) with (act Q (m_nb M b)).
    rewrite !(act_dot Q HQ). reflexivity.
Qed.

Lemma turn_stress : forall nu t, stress_of E' nu (conj Q t) = conj Q (stress_of E nu t).
Proof.
  intros nu t. unfold stress_of. change (e_grad_div E') with (e_grad_div E).
  destruct (e_grad_div E); [rewrite conj_sym|]; apply conj_scal.
Qed.
Lemma turn_tensor_jump : forall u f, tensor_jump E' (tv u) f = conj Q (tensor_jump E u f).
Proof.
  intros u f. unfold tensor_jump. mesh. rewrite !turn_normal, !turn_vf, !conj_outer, conj_add. f_equal.
  exact (old_addt (fun s => outer (vf u f s) (normal M f s)) f).
Qed.
Lemma turn_avg_t : forall (a a' : bool -> tensor) f, (forall s, a' s = conj Q (a (old w f s))) -> avg_t a' = conj Q (avg_t a).
Proof.
  intros a a' f H. unfold avg_t. rewrite !H, conj_add, conj_scal. do 2 f_equal. apply (old_addt a f).
Qed.
Lemma turn_sigma_max : forall f, sigma_max E' f = sigma_max E f.
Proof.
  intros f. unfold sigma_max. cbn [turn_env e_sigma_f]. unfold turn_side, old.
  destruct (w_swap w f); cbn [xorb]; [|reflexivity]. cbn zeta.
  destruct (Rgt_dec (e_sigma_f E f false) (e_sigma_f E f true)), (Rgt_dec (e_sigma_f E f true) (e_sigma_f E f false)); lra.
Qed.
Lemma turn_delta : forall uv eta e b,
  delta_uv E' (tv uv) (ts eta) (turn_ext w e) b = option_map (act Q) (delta_uv E uv eta e b).
Proof.
  intros uv eta e b. unfold delta_uv. mesh. rewrite turn_uv_ext_v. cbn [turn_ext ex_un ex_uv].
  destruct (ex_un e) as [un|].
  - cbn [option_map]. rewrite turn_unb, turn_nb, act_scal. reflexivity.
  - destruct (ex_uv e); cbn [turn_uvext option_map]; rewrite ?turn_vb, ?act_sub; reflexivity.
Qed.

Lemma turn_viscosity : forall psi uv eta eta_old,
  viscosity E' (tv psi) (tv uv) (ts eta) (ts eta_old) = viscosity E psi uv eta eta_old.
Proof.
  intros. unfold viscosity. mesh. change (e_nu E') with (option_map ts (e_nu E)).
  destruct (e_nu E) as [nu|]; [|reflexivity]. cbn [option_map].
  change (e_u_jump E') with (e_u_jump E). change (e_grad_depth E') with (e_grad_depth E).
  do 2 f_equal; [f_equal|].
  - apply turn_dx. intros p _. rewrite !turn_gradv, turn_stress. apply conj_inner, HQ.
  - destruct (e_u_jump E); [|reflexivity]. f_equal.
    + apply turn_dS. intros f _. rewrite turn_avg_s, turn_sigma_max, !turn_tensor_jump, turn_stress.
      rewrite (turn_avg_t (grad_f psi f) (grad_f (tv psi) f) f) by (intro s; apply turn_gradf).
      rewrite (turn_avg_t (fun s => stress_of E (s_f nu f s) (grad_f uv f s))
                 (fun s => stress_of E' (s_f (ts nu) f s) (grad_f (tv uv) f s)) f)
        by (intro s; rewrite turn_gradf, turn_stress; reflexivity).
      rewrite !(conj_inner Q HQ). reflexivity.
    + apply turn_ds. intros b _. at_bnd b; [reflexivity|]. rewrite turn_delta.
      destruct (delta_uv E uv eta e b) as [d|]; cbn [option_map]; [|reflexivity].
      change (m_nb (turn_mesh w M) b) with (act Q (m_nb M b)). rewrite turn_vb, !turn_gradb, !conj_outer, !turn_stress, !(conj_inner Q HQ).
      reflexivity.
  - destruct (e_grad_depth E); [|reflexivity]. apply turn_dx. intros p _.
    cbn [turn_env e_grad_h]. unfold turn_pt. rewrite turn_hv, turn_vv, turn_gradv, turn_stress, act_scal, (conj_vec Q HQ), (act_dot Q HQ). reflexivity.
Qed.

Lemma turn_coriolis : forall psi uv, coriolis E' (tv psi) (tv uv) = coriolis E psi uv.
Proof.
  intros. unfold coriolis. mesh. cbn [turn_env e_coriolis]. destruct (e_coriolis E) as [c|]; [|reflexivity]. cbn [option_map].
  f_equal. apply turn_dx. intros p _. rewrite !turn_vv.
  replace (det Q * c p) with (c p * det Q) by ring. rewrite Rmult_assoc, (act_det Q HQ). reflexivity.
Qed.
Lemma turn_wind : forall psi eta_old, wind E' (tv psi) (ts eta_old) = wind E psi eta_old.
Proof.
  intros. unfold wind. mesh. cbn [turn_env e_wind]. destruct (e_wind E) as [t|]; [|reflexivity]. cbn [option_map].
  apply turn_dx. intros p _. rewrite turn_vv. unfold turn_pt. rewrite (act_dot Q HQ). reflexivity.
Qed.
Lemma turn_atmospheric : forall psi, atmospheric E' (tv psi) = atmospheric E psi.
Proof.
  intros. unfold atmospheric. mesh. cbn [turn_env e_patm_grad]. destruct (e_patm_grad E) as [t|]; [|reflexivity]. cbn [option_map].
  f_equal. apply turn_dx. intros p _. rewrite turn_vv. unfold turn_pt. rewrite (act_dot Q HQ). reflexivity.
Qed.
Lemma turn_quadratic : forall psi uv uv_old eta_old,
  quadratic_drag E' (tv psi) (tv uv) (tv uv_old) (ts eta_old) = quadratic_drag E psi uv uv_old eta_old.
Proof.
  intros. unfold quadratic_drag. mesh. change (drag_coefficient E' (ts eta_old)) with (drag_coefficient E eta_old).
  destruct (drag_coefficient E eta_old) as [[cd|]|]; [|reflexivity|reflexivity]. f_equal. f_equal.
  apply turn_dx. intros p _. rewrite !turn_vv, !(act_dot Q HQ). reflexivity.
Qed.
Lemma turn_boundary_drag : forall psi uv uv_old, boundary_drag E' (tv psi) (tv uv) (tv uv_old) = boundary_drag E psi uv uv_old.
Proof.
  intros. unfold boundary_drag. mesh. f_equal. apply turn_ds. intros b _. cbn [turn_env e_drag_b turn_mesh m_marker].
  destruct (e_drag_b E (m_marker M b)); [|reflexivity].
  change (mk_mesh _ _ _ _ _ _ _ _ _) with (turn_mesh w M).
  rewrite turn_nb, !turn_unb, !turn_vb, !act_scal, !act_sub, !(act_dot Q HQ). reflexivity.
Qed.
Lemma turn_linear_drag : forall psi uv, linear_drag E' (tv psi) (tv uv) = linear_drag E psi uv.
Proof.
  intros. unfold linear_drag. mesh. change (e_linear E') with (e_linear E). destruct (e_linear E); [|reflexivity].
  f_equal. apply turn_dx. intros p _. rewrite !turn_vv, (act_dot Q HQ). reflexivity.
Qed.
Lemma turn_bottom_drag : forall psi eta_old, bottom_drag_3d E' (tv psi) (ts eta_old) = bottom_drag_3d E psi eta_old.
Proof.
  intros. unfold bottom_drag_3d. mesh. cbn [turn_env e_drag3d]. destruct (e_drag3d E) as [[cd ub]|]; [|reflexivity].
  cbn [option_map fst snd]. f_equal. apply turn_dx. intros p _. unfold turn_pt. rewrite (act_dot Q HQ), turn_vv, act_scal, (act_dot Q HQ). reflexivity.
Qed.
Lemma turn_turbines : forall psi uv uv_old eta_old,
  turbine_drag E' (tv psi) (tv uv) (tv uv_old) (ts eta_old) = turbine_drag E psi uv uv_old eta_old.
Proof.
  intros. unfold turbine_drag. f_equal. cbn [turn_env e_farms]. induction (e_farms E) as [|[[[pts wt] den] ct] r IH]; [reflexivity|].
  cbn [map fold_right]. rewrite IH. f_equal. apply integral_both; [apply Hw|]. intros p _.
  rewrite !turn_vv, !(act_dot Q HQ), (act_back Q HQ). reflexivity.
Qed.
Lemma turn_msource : forall psi, momentum_source E' (tv psi) = momentum_source E psi.
Proof.
  intros. unfold momentum_source. mesh. cbn [turn_env e_msource]. destruct (e_msource E) as [t|]; [|reflexivity]. cbn [option_map].
  apply turn_dx. intros p _. rewrite turn_vv. unfold turn_pt. apply act_dot, HQ.
Qed.
Lemma turn_vsource : forall phi, continuity_source E' (ts phi) = continuity_source E phi.
Proof.
  intros. unfold continuity_source. mesh. change (e_vsource E') with (e_vsource E). destruct (e_vsource E); [|reflexivity].
  apply turn_dx. reflexivity.
Qed.

Lemma turn_momentum : forall psi uv eta uv_old eta_old,
  momentum_residual E' (tv psi) (tv uv) (ts eta) (tv uv_old) (ts eta_old) = momentum_residual E psi uv eta uv_old eta_old.
Proof.
  intros. unfold momentum_residual. rewrite turn_quadratic, turn_pressure, turn_advection, turn_viscosity, turn_coriolis, turn_wind,
    turn_atmospheric, turn_linear_drag, turn_boundary_drag, turn_bottom_drag, turn_msource, turn_turbines. reflexivity.
Qed.
Lemma turn_split : forall psi uv eta eta_old,
  split_momentum_residual E' (tv psi) (tv uv) (ts eta) (ts eta_old) = split_momentum_residual E psi uv eta eta_old.
Proof. intros. unfold split_momentum_residual. rewrite turn_pressure, turn_coriolis, turn_msource, turn_atmospheric. reflexivity. Qed.
Lemma turn_continuity : forall phi uv eta uv_old eta_old dh,
  continuity_residual E' (ts phi) (tv uv) (ts eta) (tv uv_old) (ts eta_old) dh = continuity_residual E phi uv eta uv_old eta_old dh.
Proof. intros. unfold continuity_residual. rewrite turn_hu_div, turn_vsource. reflexivity. Qed.

(** ** Tracers *)
Variable T : tracer_env V F B.
Notation T' := (turn_tenv w T).

Lemma turn_up : forall x, up_s T' x = up_s T x.
Proof. reflexivity. Qed.
Lemma up_odd : forall x, x <> 0 \/ t_sign0 T = 0 -> up_s T (- x) = 1 - up_s T x.
Proof.
  intros x H. unfold up_s, sign. destruct (Rlt_dec 0 x), (Rlt_dec x 0), (Rlt_dec 0 (- x)), (Rlt_dec (- x) 0); lra.
Qed.
Lemma turn_un : forall uv f, un_av E' (tv uv) f = if w_swap w f then - un_av E uv f else un_av E uv f.
Proof.
  intros uv f. unfold un_av. mesh. rewrite turn_avg_v, turn_normal, (act_dot Q HQ). unfold old.
  destruct (w_swap w f); cbn [xorb]; [|reflexivity]. unfold dot2, normal; cbn; ring.
Qed.
Lemma turn_tuv_ext : forall tb elev uv b,
  tuv_ext E' (turn_tbnd w tb) (s_b (ts elev)) (vb (tv uv)) b = act Q (tuv_ext E tb (s_b elev) (vb uv) b).
Proof.
  intros. unfold tuv_ext. exact (turn_uv_ext_v (mk_ext (tb_elev tb) (tb_uv tb) None) elev uv b).
Qed.

Lemma opposite : forall f s, normal M f (negb s) = (- fst (normal M f s), - snd (normal M f s)).
Proof. intros f s. destruct s; cbn [negb normal]; [reflexivity|]. apply pair_ext; cbn; ring. Qed.

Lemma turn_tadv : forall phi c uv elev, upwind_clear w E T uv ->
  tracer_advection E' T' (ts phi) (ts c) (tv uv) (ts elev) = tracer_advection E T phi c uv elev.
Proof.
  intros phi c uv elev HU. unfold tracer_advection. mesh. change (t_dg T') with (t_dg T). change (t_lax T') with (t_lax T).
  do 2 f_equal; [f_equal|].
  - f_equal. apply turn_dx. intros p _. rewrite turn_div, turn_vv. cbn [turn_s s_v s_gv]. rewrite (act_dot Q HQ). reflexivity.
  - destruct (t_dg T); [|reflexivity]. f_equal.
    + apply turn_dS. intros f Hf. rewrite !turn_vf, !turn_normal, !(act_dot Q HQ), turn_un, !turn_up. cbn [turn_s s_f]. unfold old.
      destruct (w_swap w f) eqn:Ew; cbn [xorb]; [|reflexivity].
      assert (HC : up_s T (- un_av E uv f) = 1 - up_s T (un_av E uv f) \/ forall s, dot2 (vf uv f s) (normal M f s) = 0).
      { destruct HU as [H0|HU]; [left; apply up_odd; right; exact H0|].
        destruct (HU f Hf Ew) as [H|H]; [left; apply up_odd; left; exact H|right; exact H]. }
      destruct HC as [HC|HC]; [rewrite HC; ring|]. rewrite !HC. ring.
    + destruct (t_lax T) as [[lf speed]|]; [|reflexivity]. apply turn_dS. intros f _. cbn [turn_s s_f].
      rewrite (old_jump2 (s_f phi f) (s_f c f) f). reflexivity.
  - apply turn_ds. intros b _. cbn [turn_tenv t_bnd turn_mesh m_marker]. destruct (t_bnd T (m_marker M b)) as [tb|]; cbn [option_map].
    + change (mk_mesh _ _ _ _ _ _ _ _ _) with (turn_mesh w M).
      rewrite turn_tuv_ext, turn_vb, act_add, act_scal. change (m_nb (turn_mesh w M) b) with (act Q (m_nb M b)).
      rewrite (act_dot Q HQ). reflexivity.
    + change (mk_mesh _ _ _ _ _ _ _ _ _) with (turn_mesh w M). rewrite turn_unb. reflexivity.
Qed.

Lemma turn_cons : forall phi c uv elev, upwind_clear w E T uv ->
  cons_advection E' T' (ts phi) (ts c) (tv uv) (ts elev) = cons_advection E T phi c uv elev.
Proof.
  intros phi c uv elev HU. unfold cons_advection. mesh. change (t_dg T') with (t_dg T). change (t_lax T') with (t_lax T).
  do 2 f_equal; [f_equal|].
  - f_equal. apply turn_dx. intros p _. rewrite turn_vv. cbn [turn_s s_v s_gv]. rewrite (act_dot Q HQ). reflexivity.
  - destruct (t_dg T); [|reflexivity]. f_equal.
    + apply turn_dS. intros f Hf. rewrite turn_jump_n, !turn_vf, !act_scal, act_add, (act_dot Q HQ), turn_un, !turn_up.
      cbn [turn_s s_f]. unfold old. destruct (w_swap w f) eqn:Ew; cbn [xorb]; [|reflexivity].
      assert (HC : up_s T (- un_av E uv f) = 1 - up_s T (un_av E uv f) \/ forall s, dot2 (vf uv f s) (normal M f s) = 0).
      { destruct HU as [H0|HU]; [left; apply up_odd; right; exact H0|].
        destruct (HU f Hf Ew) as [H|H]; [left; apply up_odd; left; exact H|right; exact H]. }
      destruct HC as [HC|HC].
      * rewrite HC. unfold dot2, add2, scal2; cbn [fst snd]. ring.
      * assert (Z : forall a b, dot2 (add2 (scal2 a (vf uv f false)) (scal2 b (vf uv f true))) (jump_n M phi f) = 0).
        { intros a b. pose proof (HC true) as H1. pose proof (HC false) as H2.
          transitivity ((s_f phi f true - s_f phi f false) *
             (b * dot2 (vf uv f true) (normal M f true) - a * dot2 (vf uv f false) (normal M f false))).
          - rewrite jump_n_add. pose proof (opposite f true) as O. cbn [negb] in O. rewrite O. unfold dot2, add2, scal2; cbn [fst snd negb]. ring.
          - rewrite H1, H2. ring. }
        rewrite Z.
        transitivity (dot2 (add2 (scal2 (s_f c f false * (1 - up_s T (- un_av E uv f))) (vf uv f false))
                                 (scal2 (s_f c f true * up_s T (- un_av E uv f)) (vf uv f true))) (jump_n M phi f)).
        -- unfold dot2, add2, scal2; cbn [fst snd]. ring.
        -- apply Z.
    + destruct (t_lax T) as [[lf speed]|]; [|reflexivity]. apply turn_dS. intros f _. cbn [turn_s s_f].
      rewrite (old_jump2 (s_f phi f) (s_f c f) f). reflexivity.
  - apply turn_ds. intros b _. cbn [turn_tenv t_bnd turn_mesh m_marker]. destruct (t_bnd T (m_marker M b)) as [tb|]; cbn [option_map].
    + change (mk_mesh _ _ _ _ _ _ _ _ _) with (turn_mesh w M).
      rewrite turn_tuv_ext, turn_vb, !act_add, !act_scal, !act_add. change (m_nb (turn_mesh w M) b) with (act Q (m_nb M b)).
      rewrite !(act_dot Q HQ). reflexivity.
    + change (mk_mesh _ _ _ _ _ _ _ _ _) with (turn_mesh w M). rewrite turn_unb. reflexivity.
Qed.

Lemma turn_tdiff : forall phi c uv elev gext,
  tracer_diffusion E' T' (ts phi) (ts c) (tv uv) (ts elev) (fun b => act Q (gext b)) = tracer_diffusion E T phi c uv elev gext.
Proof.
  intros. unfold tracer_diffusion. mesh. change (t_mu T') with (option_map ts (t_mu T)). destruct (t_mu T) as [mu|]; [|reflexivity].
  cbn [option_map]. change (t_dg T') with (t_dg T). do 2 f_equal; [f_equal|].
  - apply turn_dx. intros p _. cbn [turn_s s_v s_gv]. rewrite act_scal, (act_dot Q HQ). reflexivity.
  - destruct (t_dg T); [|reflexivity]. apply turn_dS. intros f _.
    rewrite !turn_jump_n, turn_avg_s. cbn [turn_s s_f s_gf turn_tenv t_sigma_f]. unfold turn_side.
    rewrite !act_scal, !act_add, !act_scal, !(act_dot Q HQ).
    rewrite (old_add (fun s => scal2 (s_f mu f s) (s_gf phi f s)) f), (old_add (fun s => scal2 (s_f mu f s) (s_gf c f s)) f).
    f_equal. f_equal. f_equal. unfold old. destruct (w_swap w f); cbn [xorb]; [|reflexivity].
    destruct (Rgt_dec (t_sigma_f T f false) (t_sigma_f T f true)), (Rgt_dec (t_sigma_f T f true) (t_sigma_f T f false)); lra.
  - apply turn_ds. intros b _. cbn [turn_tenv t_bnd turn_mesh m_marker]. destruct (t_bnd T (m_marker M b)) as [tb|]; cbn [option_map]; [|reflexivity].
    change (tb_diff_flux (turn_tbnd w tb)) with (tb_diff_flux tb). destruct (tb_diff_flux tb); [reflexivity|].
    change (mk_mesh _ _ _ _ _ _ _ _ _) with (turn_mesh w M).
    change (tb_value (turn_tbnd w tb)) with (tb_value tb).
    rewrite turn_tuv_ext, turn_vb, act_add, act_scal. change (m_nb (turn_mesh w M) b) with (act Q (m_nb M b)).
    rewrite (act_dot Q HQ), turn_up. cbn [turn_s s_gb s_b].
    destruct (tb_value tb); rewrite !act_scal, act_add, !act_scal, (act_dot Q HQ); reflexivity.
Qed.
Lemma turn_tsource : forall phi, tracer_source E' T' (ts phi) = tracer_source E T phi.
Proof.
  intros. unfold tracer_source. mesh. change (t_source T') with (t_source T). destruct (t_source T); [|reflexivity].
  do 2 f_equal. apply turn_dx. reflexivity.
Qed.
Lemma turn_csource : forall phi elev, cons_source E' T' (ts phi) (ts elev) = cons_source E T phi elev.
Proof.
  intros. unfold cons_source. mesh. change (t_source T') with (t_source T). destruct (t_source T); [|reflexivity].
  do 2 f_equal. apply turn_dx. reflexivity.
Qed.
End Frame.

(** ** Spaces *)
Section Spaces.
Context {V F B : Type}.
Variable w : view V F B.
Notation Q := (w_q w).

Lemma sfield_ext : forall p q : sfield V F B, (forall x, s_v p x = s_v q x) -> (forall x, s_gv p x = s_gv q x) ->
  (forall f s, s_f p f s = s_f q f s) -> (forall f s, s_gf p f s = s_gf q f s) ->
  (forall b, s_b p b = s_b q b) -> (forall b, s_gb p b = s_gb q b) -> p = q.
Proof.
  intros [a b c d e f] [a' b' c' d' e' f']; cbn; intros.
  f_equal; repeat (apply functional_extensionality; intro); auto.
Qed.
Lemma turn_s_add : forall p q, turn_s w (add_s p q) = add_s (turn_s w p) (turn_s w q).
Proof. intros. apply sfield_ext; intros; cbn [turn_s add_s s_v s_gv s_f s_gf s_b s_gb]; try reflexivity; symmetry; apply act_add. Qed.
Lemma turn_s_scale : forall k p, turn_s w (scale_s k p) = scale_s k (turn_s w p).
Proof. intros. apply sfield_ext; intros; cbn [turn_s scale_s s_v s_gv s_f s_gf s_b s_gb]; try reflexivity; symmetry; apply act_scal. Qed.
Lemma turn_s_const : forall k, turn_s w (const_s k) = const_s k.
Proof. intros. apply sfield_ext; intros; cbn [turn_s const_s s_v s_gv s_f s_gf s_b s_gb]; try reflexivity; apply pair_ext; cbn; ring. Qed.
Lemma turn_comb : forall n c (f : nat -> sfield V F B), turn_s w (comb n c f) = comb n c (fun i => turn_s w (f i)).
Proof.
  intros n c f. induction n as [|n IH]; cbn [comb]; [apply turn_s_const|]. rewrite turn_s_add, turn_s_scale, IH. reflexivity.
Qed.
Lemma comb_mix : forall n c (f g : nat -> sfield V F B) a b,
  comb n c (fun i => add_s (scale_s a (f i)) (scale_s b (g i))) = add_s (scale_s a (comb n c f)) (scale_s b (comb n c g)).
Proof.
  intros n c f g a b. induction n as [|n IH]; cbn [comb].
  - apply sfield_ext; intros; cbn [const_s add_s scale_s s_v s_gv s_f s_gf s_b s_gb]; try apply pair_ext; cbn; ring.
  - rewrite IH. apply sfield_ext; intros; cbn [add_s scale_s s_v s_gv s_f s_gf s_b s_gb]; try apply pair_ext; cbn; ring.
Qed.
Lemma turn_eta_of : forall W u, eta_of (turn_space w W) u = turn_s w (eta_of W u).
Proof. intros. unfold eta_of. cbn [turn_space n_eta phi]. rewrite turn_comb. reflexivity. Qed.
Lemma turn_uv_of : forall W u, uv_of (turn_space w W) u = turn_v w (uv_of W u).
Proof.
  intros. unfold uv_of, turn_v. cbn [turn_space n_uv psi turn_v v_x v_y]. rewrite !comb_mix, !turn_comb. reflexivity.
Qed.
Lemma turn_tracer_of : forall W c, tracer_of (turn_tspace w W) c = turn_s w (tracer_of W c).
Proof. intros. unfold tracer_of. cbn [turn_tspace n_c chi]. rewrite turn_comb. reflexivity. Qed.
End Spaces.
