(** C85: the variance of a tracer over whole runs. *)
From Coq Require Import Reals List String Bool Arith Lia Lra FunctionalExtensionality.
From Verif Require Import Forms_Model Forms_Spec Forms_Proofs P_SWE P_Tracer2d
  RK_Model RK_Spec RK_Proofs RK_Proofs3 RK_Proofs4 TimeInt_Model TimeInt_Spec TimeInt_Proofs P_RungeKutta P_TimeInt
  Cfl_Model Stable_Spec P_Energy Galerkin_Model Galerkin_Proofs P_Galerkin LinSys_Proofs WaveEnergy_Proofs
  P_WaveEnergy Variance_Spec.
Import ListNotations.
Open Scope R_scope.

(* ------------------------------------------------------------------ *)
(** * The forms are affine in the tracer *)
Section Affine.
Context {V F B : Type}.
Local Notation sfield := (sfield V F B).

(** [f] is affine with the linear part [l] *)
Definition aff (f l : sfield -> R) : Prop :=
  forall p a q, f (add_s p (scale_s a q)) = f p + a * l q.
Lemma aff_plus : forall f l g m, aff f l -> aff g m -> aff (fun p => f p + g p) (fun q => l q + m q).
Proof. intros f l g m H1 H2 p a q. rewrite H1, H2. ring. Qed.
Lemma aff_opp : forall f l, aff f l -> aff (fun p => - f p) (fun q => - l q).
Proof. intros f l H1 p a q. rewrite H1. ring. Qed.
Lemma aff_const : forall r, aff (fun _ => r) (fun _ => 0).
Proof. intros r p a q. ring. Qed.
Lemma aff_integral {X : Type} : forall (l : list X) w (g m : sfield -> X -> R),
  (forall x, aff (fun p => g p x) (fun q => m q x)) ->
  aff (fun p => integral l w (g p)) (fun q => integral l w (m q)).
Proof. intros l w g m H p a q. apply integral_lin. intros x _. apply (H x). Qed.

Variable E : swe_env V F B.
Variable T : tracer_env V F B.
Notation M := (e_mesh E).
Notation T0 := (no_data_env T).

Ltac ptwise := intros ? ? ?; unfold jump_n, normal, jump, avg, dot2, scal2, add2; cbn [const_s add_s scale_s s_v s_gv s_f s_gf s_b s_gb fst snd];
  unfold dot2, scal2, add2; cbn [fst snd]; ring.

Lemma aff_advection : forall phi uv el,
  aff (fun c => tracer_advection E T phi c uv el) (fun c => tracer_advection E T0 phi c uv el).
Proof.
  intros phi uv el. unfold tracer_advection. apply aff_opp. apply aff_plus; [apply aff_plus|].
  - apply aff_opp. apply aff_integral. intros p. ptwise.
  - cbn [no_data_env t_dg t_lax]. destruct (t_dg T); [|apply aff_const]. apply aff_plus.
    + apply aff_integral. intros f. cbv zeta. change (up_s T0) with (up_s T). ptwise.
    + destruct (t_lax T) as [[lf sp]|]; [|apply aff_const]. apply aff_integral. intros f. ptwise.
  - apply aff_integral. intros b. cbn [no_data_env t_bnd]. destruct (t_bnd T (m_marker M b)) as [tb|]; cbn [option_map]; cbv zeta; [|ptwise].
    change (tuv_ext E (no_data_bnd tb)) with (tuv_ext E tb). change (up_s T0) with (up_s T).
    unfold c_ext; cbn [no_data_bnd tb_value]. destruct (tb_value tb); cbn [option_map]; ptwise.
Qed.

Lemma aff_cons_advection : forall phi uv el,
  aff (fun c => cons_advection E T phi c uv el) (fun c => cons_advection E T0 phi c uv el).
Proof.
  intros phi uv el. unfold cons_advection. apply aff_opp. apply aff_plus; [apply aff_plus|].
  - apply aff_opp. apply aff_integral. intros p. ptwise.
  - cbn [no_data_env t_dg t_lax]. destruct (t_dg T); [|apply aff_const]. apply aff_plus.
    + apply aff_integral. intros f. cbv zeta. change (up_s T0) with (up_s T). ptwise.
    + destruct (t_lax T) as [[lf sp]|]; [|apply aff_const]. apply aff_integral. intros f. ptwise.
  - apply aff_integral. intros b. cbn [no_data_env t_bnd]. destruct (t_bnd T (m_marker M b)) as [tb|]; cbn [option_map]; cbv zeta; [|ptwise].
    change (tuv_ext E (no_data_bnd tb)) with (tuv_ext E tb). change (up_s T0) with (up_s T).
    unfold c_ext; cbn [no_data_bnd tb_value]. destruct (tb_value tb); cbn [option_map]; ptwise.
Qed.

Lemma aff_diffusion : forall phi uv el gext,
  aff (fun c => tracer_diffusion E T phi c uv el gext) (fun c => tracer_diffusion E T0 phi c uv el (fun _ => (0, 0))).
Proof.
  intros phi uv el gext. unfold tracer_diffusion. cbn [no_data_env t_mu]. destruct (t_mu T) as [mu|]; [|apply aff_const].
  apply aff_opp. apply aff_plus; [apply aff_plus|].
  - apply aff_integral. intros p. ptwise.
  - cbn [no_data_env t_dg t_sigma_f]. destruct (t_dg T); [|apply aff_const]. apply aff_integral. intros f. cbv zeta. ptwise.
  - apply aff_integral. intros b. cbn [no_data_env t_bnd]. destruct (t_bnd T (m_marker M b)) as [tb|]; cbn [option_map]; cbv zeta; [|ptwise].
    change (tuv_ext E (no_data_bnd tb)) with (tuv_ext E tb). change (up_s T0) with (up_s T).
    cbn [no_data_bnd tb_value tb_diff_flux]. destruct (tb_diff_flux tb); cbn [option_map]; [ptwise|].
    destruct (tb_value tb); cbn [option_map]; ptwise.
Qed.

Ltac ptest := split; [|intros]; unfold jump_n, normal, jump, avg, dot2, scal2, add2; cbn [const_s add_s scale_s s_v s_gv s_f s_gf s_b s_gb fst snd];
  unfold dot2, scal2, add2; cbn [fst snd]; ring.
Lemma lin_advection : forall c uv elev,
  lin_test (fun phi => tracer_advection E T phi c uv elev).
Proof.
  intros c uv elev. unfold tracer_advection. apply lin_opp. apply lin_plus; [apply lin_plus|].
  - apply lin_opp. apply lin_integral. intros p. ptest.
  - destruct (t_dg T); [|apply lin_zero_form]. apply lin_plus.
    + apply lin_integral. intros f. cbv zeta. ptest.
    + destruct (t_lax T) as [[lf sp]|]; [|apply lin_zero_form].
      apply lin_integral. intros f. ptest.
  - apply lin_integral. intros b. destruct (t_bnd T (m_marker M b)); cbv zeta; ptest.
Qed.
End Affine.

(* ------------------------------------------------------------------ *)
Section Variance.
Context {V F B Val Bd : Type}.
Local Notation sfield := (sfield V F B).
Local Notation vfield := (vfield V F B).
Local Notation tcase := (@tcase V F B).
Variable W : @tspace V F B.
Variable M : mesh V F B.
Variable conservative : bool.
Notation q := (tracer_of W).
Notation var := (variance W M).
Notation mass := (tracer_mass W M).
Notation n := (n_c W).
Notation rows := (tvec W conservative).

(** [c + a*d] *)
Definition plus (c : nat -> R) (a : R) (d : nat -> R) : nat -> R := fun i => c i + a * d i.

Lemma q_plus : forall c a d, q (plus c a d) = add_s (q c) (scale_s a (q d)).
Proof. intros c a d. unfold tracer_of, plus. apply comb_plus. Qed.

Definition tprod (c d : nat -> R) : R := dx M (fun p => s_v (q c) p * s_v (q d) p).
Lemma var_prod : forall c, var c = tprod c c.
Proof. reflexivity. Qed.
Lemma tprod_sym : forall c d, tprod c d = tprod d c.
Proof. intros. apply integral_ext. intros p _. ring. Qed.
Lemma tprod_lin : forall c a d e, tprod (plus c a d) e = tprod c e + a * tprod d e.
Proof. intros. unfold tprod. rewrite q_plus. apply integral_lin. intros p _. cbn [add_s scale_s s_v]. ring. Qed.

Lemma var_pos : positive_weights M -> forall c, 0 <= var c.
Proof.
  intros (Hw & _) c. apply integral_nonneg; [intros p Hp; apply Rlt_le, Hw, Hp|].
  intros p _. apply (Rle_0_sqr (s_v (q c) p)).
Qed.

Lemma mass_lin : forall c a d i, mass (plus c a d) i = mass c i + a * mass d i.
Proof.
  intros. unfold tracer_mass. destruct (Nat.ltb i n); [|reflexivity]. rewrite q_plus. apply integral_lin.
  intros p _. cbn [add_s scale_s s_v]. ring.
Qed.

Lemma rows_affine : forall k c a d i, rows k (plus c a d) i = rows k c i + a * rows (no_data k) d i.
Proof.
  intros k c a d i. unfold tvec, tracer_vector. destruct (Nat.ltb i n); [|ring]. rewrite q_plus.
  cbn [no_data tc_E tc_T tc_uv tc_elev tc_gext]. rewrite (aff_diffusion (tc_E k) (tc_T k) (chi W i) _ _ _ (q c) a (q d)).
  destruct conservative.
  - rewrite (aff_cons_advection (tc_E k) (tc_T k) (chi W i) _ _ (q c) a (q d)).
    unfold cons_source; cbn [no_data_env t_source]. ring.
  - rewrite (aff_advection (tc_E k) (tc_T k) (chi W i) _ _ (q c) a (q d)).
    unfold tracer_source; cbn [no_data_env t_source]. ring.
Qed.

Lemma no_data_twice : forall k : tcase, no_data (no_data k) = no_data k.
Proof.
  intro k. unfold no_data. cbn [tc_E tc_T tc_uv tc_elev]. f_equal. unfold no_data_env. cbn [t_dg t_lax t_bnd t_mu t_sigma_f t_sign0].
  f_equal. apply functional_extensionality. intro m. destruct (t_bnd (tc_T k) m) as [tb|]; [|reflexivity].
  cbn [option_map]. unfold no_data_bnd. cbn. destruct (tb_value tb), (tb_diff_flux tb); reflexivity.
Qed.

Lemma rows_linear0 : forall k c a d i,
  rows (no_data k) (plus c a d) i = rows (no_data k) c i + a * rows (no_data k) d i.
Proof. intros. rewrite rows_affine, no_data_twice. reflexivity. Qed.

Lemma rows_differ : forall k c d i, rows k c i - rows k d i = rows (no_data k) (plus c (-1) d) i.
Proof.
  intros. replace (rows k c i) with (rows k (plus d 1 (plus c (-1) d)) i).
  - rewrite rows_affine. ring.
  - f_equal. apply functional_extensionality. intro j. unfold plus. ring.
Qed.

(** work of rows along a tracer *)
Definition work (v r : nat -> R) : R := row_sum n v r.
Lemma work_lin : forall v r a s, work v (fun i => r i + a * s i) = work v r + a * work v s.
Proof.
  intros. unfold work, row_sum. rewrite <- rsum_scal, <- rsum_plus. apply rsum_ext. intros; ring.
Qed.
Lemma work_ext : forall v r s, (forall i, r i = s i) -> work v r = work v s.
Proof. intros v r s H. unfold work, row_sum. apply rsum_ext. intros i _. rewrite H. reflexivity. Qed.
Lemma work_mass : forall v c, work v (mass c) = tprod c v.
Proof.
  intros v c. unfold tprod, work, row_sum. symmetry. change (q v) with (comb n v (chi W)).
  rewrite (lin_comb _ (lin_mass M (s_v (q c))) n v (chi W)).
  apply rsum_ext. intros i Hi. unfold tracer_mass. apply Nat.ltb_lt in Hi. rewrite Hi. reflexivity.
Qed.

(** the equation without data, tested with [v] *)
Definition tform (k : tcase) (v c : nat -> R) : R :=
  (if conservative then cons_advection (tc_E k) (no_data_env (tc_T k)) (q v) (q c) (tc_uv k) (tc_elev k)
   else tracer_advection (tc_E k) (no_data_env (tc_T k)) (q v) (q c) (tc_uv k) (tc_elev k))
  + tracer_diffusion (tc_E k) (no_data_env (tc_T k)) (q v) (q c) (tc_uv k) (tc_elev k) (fun _ => (0, 0)).

Lemma work_rows : forall k v c, work v (rows (no_data k) c) = tform k v c.
Proof.
  intros k v c. unfold tform, work, row_sum.
  transitivity (rsum n (fun i => v i *
    ((if conservative then cons_advection (tc_E k) (no_data_env (tc_T k)) (chi W i) (q c) (tc_uv k) (tc_elev k)
      else tracer_advection (tc_E k) (no_data_env (tc_T k)) (chi W i) (q c) (tc_uv k) (tc_elev k))
     + tracer_diffusion (tc_E k) (no_data_env (tc_T k)) (chi W i) (q c) (tc_uv k) (tc_elev k) (fun _ => (0, 0))))).
  - apply rsum_ext. intros i Hi. unfold tvec, tracer_vector. apply Nat.ltb_lt in Hi. rewrite Hi.
    cbn [no_data tc_E tc_T tc_uv tc_elev tc_gext]. unfold cons_source, tracer_source. cbn [no_data_env t_source].
    destruct conservative; ring.
  - symmetry. change (q v) with (comb n v (chi W)). destruct conservative.
    + apply (lin_comb _ (lin_plus _ _ (lin_cons_advection (tc_E k) (no_data_env (tc_T k)) (q c) (tc_uv k) (tc_elev k))
        (lin_diffusion (tc_E k) (no_data_env (tc_T k)) (q c) (tc_uv k) (tc_elev k) (fun _ => (0, 0)))) n v (chi W)).
    + apply (lin_comb _ (lin_plus _ _ (lin_advection (tc_E k) (no_data_env (tc_T k)) (q c) (tc_uv k) (tc_elev k))
        (lin_diffusion (tc_E k) (no_data_env (tc_T k)) (q c) (tc_uv k) (tc_elev k) (fun _ => (0, 0)))) n v (chi W)).
Qed.

(* ------------------------------------------------------------------ *)
(** * Where the variance goes *)

(** half the rate at which upwinding, the boundaries and diffusion take variance,
    and half the rate at which converging water gives it *)
Definition facet_loss (k : tcase) (d : nat -> R) : R :=
  dS M (fun f => (1/2 * Rabs (un_av (tc_E k) (tc_uv k) f) + lax (tc_T k) f) * (jump (s_f (q d) f) * jump (s_f (q d) f))).
Definition bnd_loss (k : tcase) (d : nat -> R) : R :=
  ds M (fun b => 1/2 * Rabs (unb M (tc_uv k) b) * (s_b (q d) b * s_b (q d) b)).
Definition diff_loss (k : tcase) (d : nat -> R) : R :=
  - tracer_diffusion (tc_E k) (no_data_env (tc_T k)) (q d) (q d) (tc_uv k) (tc_elev k) (fun _ => (0, 0)).
Definition spread_gain (k : tcase) (d : nat -> R) : R :=
  (if conservative then -1 else 1) * dx M (fun p => 1/2 * (s_v (q d) p * s_v (q d) p) * divv (tc_uv k) p).
Definition tloss (k : tcase) (d : nat -> R) : R :=
  facet_loss k d + bnd_loss k d + diff_loss k d - spread_gain k d.

Lemma facet_balance : forall k d f, transport W M k -> In f (m_facets M) ->
  let s := up_s (tc_T k) (un_av (tc_E k) (tc_uv k) f) in
  let un := un_f (tc_E k) (tc_uv k) f in
  let c := s_f (q d) f in
  1/2 * (c true * c true) * un true + 1/2 * (c false * c false) * un false
  - (c false * s + c true * (1 - s)) * (c true * un true + c false * un false)
  = - (1/2 * Rabs (un_av (tc_E k) (tc_uv k) f) * (jump c * jump c)).
Proof.
  intros k d f (Hm & Hn & _) Hf s un c.
  assert (U : un true = - un false) by (apply Hn; rewrite Hm; exact Hf).
  assert (A : un_av (tc_E k) (tc_uv k) f = un false) by (apply un_av_eq; exact U).
  unfold s. rewrite A. rewrite U. clear s A U. unfold jump.
  destruct (Rtotal_order (un false) 0) as [L|[L|L]].
  - rewrite up_neg by exact L. rewrite Rabs_left by exact L. field.
  - rewrite L, Rabs_R0. ring.
  - rewrite up_pos by exact L. rewrite Rabs_right by lra. field.
Qed.

Lemma bnd_balance : forall k d b, transport W M k -> fed_inflow M k -> In b (m_bnds M) ->
  let T := no_data_env (tc_T k) in
  let u := unb M (tc_uv k) b in
  let c := s_b (q d) b in
  1/2 * (c * c) * u -
  match t_bnd T (m_marker M b) with
  | None => c * u * c
  | Some tb =>
      let un := dot2 (scal2 0.5 (add2 (vb (tc_uv k) b) (tuv_ext (tc_E k) tb (s_b (tc_elev k)) (vb (tc_uv k)) b))) (m_nb M b) in
      let s := up_s T un in
      (c * s + c_ext tb c b * (1 - s)) * un * c
  end = - (1/2 * Rabs u * (c * c)) /\
  match t_bnd T (m_marker M b) with
  | None => True
  | Some tb =>
      let ue := tuv_ext (tc_E k) tb (s_b (tc_elev k)) (vb (tc_uv k)) b in
      let un := dot2 (scal2 0.5 (add2 (vb (tc_uv k) b) ue)) (m_nb M b) in
      let s := up_s T un in
      dot2 (add2 (scal2 (c * s) (vb (tc_uv k) b)) (scal2 (c_ext tb c b * (1 - s)) ue)) (m_nb M b)
      = (c * s + c_ext tb c b * (1 - s)) * un
  end.
Proof.
  intros k d b (Hm & _) Hfed Hb T u c. specialize (Hfed b Hb). unfold T. cbn [no_data_env t_bnd].
  destruct (t_bnd (tc_T k) (m_marker M b)) as [tb|]; cbn [option_map].
  2:{ split; [|exact I]. rewrite Rabs_right by (fold u in Hfed; lra). field. }
  change (tuv_ext (tc_E k) (no_data_bnd tb)) with (tuv_ext (tc_E k) tb).
  change (up_s (no_data_env (tc_T k))) with (up_s (tc_T k)). cbv zeta.
  set (ue := tuv_ext (tc_E k) tb (s_b (tc_elev k)) (vb (tc_uv k)) b) in *.
  destruct Hfed as (He & Hv). fold u in He, Hv.
  assert (A : dot2 (scal2 0.5 (add2 (vb (tc_uv k) b) ue)) (m_nb M b) = u).
  { transitivity (1/2 * (u + dot2 ue (m_nb M b))); [|rewrite He; field].
    unfold u, unb, dot2, scal2, add2; cbn [fst snd]. replace 0.5 with (1/2) by lra. ring. }
  rewrite A. split.
  - unfold c_ext; cbn [no_data_bnd tb_value]. destruct (tb_value tb) as [v|]; cbn [option_map].
    + destruct (Rtotal_order u 0) as [L|[L|L]].
      * rewrite up_neg by exact L. rewrite Rabs_left by exact L. field.
      * rewrite L, Rabs_R0. ring.
      * rewrite up_pos by exact L. rewrite Rabs_right by lra. field.
    + rewrite Rabs_right by (specialize (Hv eq_refl); lra). field.
  - set (s := up_s _ _). set (ce := c_ext _ _ _).
    transitivity (c * s * u + ce * (1 - s) * dot2 ue (m_nb M b)); [|rewrite He; ring].
    unfold u, unb, dot2, scal2, add2; cbn [fst snd]. ring.
Qed.

Lemma form_self : forall k d, transport W M k -> fed_inflow M k -> tform k d d = - tloss k d.
Proof.
  intros k d Ht Hi. pose proof Ht as (Hm & Hn & Hg & Hc & Hl). specialize (Hg d). cbv zeta in Hg. unfold gauss in Hg.
  set (E := tc_E k). set (T := no_data_env (tc_T k)). set (uv := tc_uv k) in *. set (el := tc_elev k).
  set (c := q d) in *.
  set (K := dx M (fun p => 1/2 * (s_v c p * s_v c p) * divv uv p)).
  set (X := dx M (fun p => 1/2 * (s_v c p * s_v c p) * divv uv p + s_v c p * dot2 (vv uv p) (s_gv c p))) in *.
  assert (L : lax (tc_T k) = lax T) by reflexivity.
  (* facets *)
  assert (FF : dS M (fun f => 1/2 * (s_f c f true * s_f c f true) * dot2 (vf uv f true) (normal M f true)
                   + 1/2 * (s_f c f false * s_f c f false) * dot2 (vf uv f false) (normal M f false))
     - (if t_dg T then
          dS M (fun f =>
            let s := up_s T (un_av E uv f) in
            let c_up := s_f c f false * s + s_f c f true * (1 - s) in
            c_up * (s_f c f true * dot2 (vf uv f true) (normal M f true)
                    + s_f c f false * dot2 (vf uv f false) (normal M f false)))
          + match t_lax T with
            | None => 0
            | Some (lf, speed) =>
                dS M (fun f => 0.5 * speed f * lf * (jump (s_f c f) * jump (s_f c f)))
            end
        else 0) = - facet_loss k d).
  { unfold facet_loss. fold E uv c. rewrite L.
    destruct (t_dg T) eqn:Edg.
    - assert (LL : match t_lax T with
                   | None => 0
                   | Some (lf, speed) => dS M (fun f => 0.5 * speed f * lf * (jump (s_f c f) * jump (s_f c f)))
                   end = dS M (fun f => lax T f * (jump (s_f c f) * jump (s_f c f)))).
      { unfold lax. destruct (t_lax T) as [[lf sp]|]; [reflexivity|]. symmetry. apply dS_zero. intros; ring. }
      rewrite LL. clear LL.
      transitivity (dS M (fun f => - ((1/2 * Rabs (un_av E uv f) + lax T f) * (jump (s_f c f) * jump (s_f c f))))).
      2:{ unfold dS. rewrite integral_opp. reflexivity. }
      unfold dS. rewrite <- integral_plus. unfold Rminus. rewrite <- integral_opp, <- integral_plus.
      apply integral_ext. intros f Hf. pose proof (facet_balance k d f Ht Hf) as Q. cbv zeta in Q.
      unfold un_f in Q. rewrite Hm in Q. cbv zeta. fold E uv c in Q. change (up_s T) with (up_s (tc_T k)).
      lra.
    - destruct Hc as [Hc|Hc]; [change (t_dg (tc_T k)) with (t_dg T) in Hc; congruence|].
      rewrite (dS_zero M). 2:{ intros f Hf. pose proof (Hn f) as Hnf. rewrite Hm in Hnf. specialize (Hnf Hf).
        unfold un_f in Hnf. rewrite Hm in Hnf. fold uv in Hnf. rewrite Hnf. unfold c. rewrite (Hc d f Hf). ring. }
      rewrite (dS_zero M). 2:{ intros f Hf. unfold jump, c. rewrite (Hc d f Hf). ring. }
      ring. }
  (* boundaries *)
  assert (BB : ds M (fun b => 1/2 * (s_b c b * s_b c b) * unb M uv b)
     - ds M (fun b =>
         match t_bnd T (m_marker M b) with
         | None => s_b c b * unb M uv b * s_b c b
         | Some tb =>
             let uv_av := scal2 0.5 (add2 (vb uv b) (tuv_ext E tb (s_b el) (vb uv) b)) in
             let un := dot2 uv_av (m_nb M b) in
             let s := up_s T un in
             (s_b c b * s + c_ext tb (s_b c b) b * (1 - s)) * un * s_b c b
         end) = - bnd_loss k d).
  { unfold bnd_loss. fold uv c. unfold ds, Rminus. rewrite <- !integral_opp, <- integral_plus.
    apply integral_ext. intros b Hb. destruct (bnd_balance k d b Ht Hi Hb) as (Q & _). exact Q. }
  unfold tform, tloss, diff_loss, spread_gain. fold E T uv el c K.
  set (D := tracer_diffusion E T c c uv el (fun _ => (0, 0))).
  enough (Ha : (if conservative then cons_advection E T c c uv el else tracer_advection E T c c uv el)
     = (if conservative then -1 else 1) * K - facet_loss k d - bnd_loss k d) by (rewrite Ha; ring).
  destruct conservative.
  - unfold cons_advection. change (e_mesh E) with (e_mesh (tc_E k)). rewrite Hm.
    assert (XX : dx M (fun p => dot2 (s_gv c p) (vv uv p) * s_v c p) = X + (-1) * K).
    { unfold X, K. apply integral_lin. intros p _. unfold dot2. ring. }
    rewrite XX.
    match goal with |- - (- _ + ?A + ?C) = _ => set (A1 := A); set (C1 := C) end.
    match type of FF with _ - ?A = _ => assert (A1 = A) as EA end.
    { unfold A1. destruct (t_dg T); [|reflexivity]. f_equal. unfold dS. apply integral_ext. intros f Hf.
      pose proof (Hn f) as Hnf. rewrite Hm in Hnf. specialize (Hnf Hf). unfold un_f in Hnf. rewrite Hm in Hnf. fold uv in Hnf.
      cbv zeta. set (s := up_s T (un_av E uv f)).
      transitivity ((s_f c f false * s) * (s_f c f true * dot2 (vf uv f false) (normal M f true) + s_f c f false * dot2 (vf uv f false) (normal M f false))
        + (s_f c f true * (1 - s)) * (s_f c f true * dot2 (vf uv f true) (normal M f true) + s_f c f false * dot2 (vf uv f true) (normal M f false))).
      { unfold jump_n, dot2, add2, scal2, normal; cbn [fst snd]. ring. }
      assert (N1 : dot2 (vf uv f false) (normal M f true) = dot2 (vf uv f true) (normal M f true)).
      { rewrite Hnf. unfold dot2, normal; cbn [fst snd]. ring. }
      assert (N2 : dot2 (vf uv f true) (normal M f false) = dot2 (vf uv f false) (normal M f false)).
      { transitivity (- dot2 (vf uv f true) (normal M f true)); [|rewrite Hnf; ring]. unfold dot2, normal; cbn [fst snd]. ring. }
      rewrite N1, N2. ring. }
    match type of BB with _ - ?A = _ => assert (C1 = A) as EC end.
    { unfold C1, ds. apply integral_ext. intros b Hb. destruct (bnd_balance k d b Ht Hi Hb) as (_ & Q).
      fold E T uv el c in Q. destruct (t_bnd T (m_marker M b)) as [tb|]; [|reflexivity]. cbv zeta in Q |- *. rewrite Q. reflexivity. }
    rewrite <- EA in FF. rewrite <- EC in BB. clearbody A1 C1. lra.
  - unfold tracer_advection. change (e_mesh E) with (e_mesh (tc_E k)). rewrite Hm.
    assert (XX : dx M (fun p => (s_v c p * divv uv p + dot2 (vv uv p) (s_gv c p)) * s_v c p) = X + 1 * K).
    { unfold X, K. apply integral_lin. intros p _. unfold dot2. field. }
    rewrite XX.
    match type of FF with _ - ?A = _ => set (A1 := A) in * end.
    match type of BB with _ - ?A = _ => set (C1 := A) in * end.
    clearbody A1 C1. lra.
Qed.

(** The rate of change of the variance is exactly what upwinding, boundaries and
    diffusion take (never negative) and what converging or diverging water adds
    (nothing where the water does neither). *)
Theorem C85_losses : forall k d, transport W M k -> fed_inflow M k ->
  row_sum (n_c W) d (tvec W conservative (no_data k) d)
  = - (facet_loss k d + bnd_loss k d + diff_loss k d) + spread_gain k d /\
  (positive_weights M -> proper_diffusion W M k -> 0 <= facet_loss k d /\ 0 <= bnd_loss k d /\ 0 <= diff_loss k d) /\
  (divergence_free M k -> spread_gain k d = 0).
Proof.
  intros k d Ht Hi. split; [|split].
  - change (work d (rows (no_data k) d) = - (facet_loss k d + bnd_loss k d + diff_loss k d) + spread_gain k d).
    rewrite work_rows, form_self by assumption. unfold tloss. ring.
  - intros Hw Hd. pose proof Hw as (Hw1 & Hw2 & Hw3). pose proof Ht as (Hm & _ & _ & _ & Hl). split; [|split].
    + apply integral_nonneg; [intros f Hf; apply Rlt_le, Hw2, Hf|]. intros f Hf.
      apply Rmult_le_pos; [|apply (Rle_0_sqr (jump (s_f (q d) f)))].
      pose proof (Rabs_pos (un_av (tc_E k) (tc_uv k) f)).
      assert (0 <= lax (tc_T k) f); [|lra]. unfold lax. destruct (t_lax (tc_T k)) as [[lf sp]|]; [|lra].
      destruct Hl as (L1 & L2). specialize (L2 f Hf). apply Rmult_le_pos; [apply Rmult_le_pos; lra|exact L1].
    + apply integral_nonneg; [intros b Hb; apply Rlt_le, Hw3, Hb|]. intros b Hb.
      apply Rmult_le_pos; [|apply (Rle_0_sqr (s_b (q d) b))]. pose proof (Rabs_pos (unb M (tc_uv k) b)). lra.
    + unfold diff_loss. destruct (t_mu (tc_T k)) as [mu|] eqn:Emu.
      2:{ unfold tracer_diffusion. cbn [no_data_env t_mu]. rewrite Emu. lra. }
      destruct (Hd mu Emu) as (D1 & D2 & D3 & D4).
      set (T1 := mk_tenv (t_dg (tc_T k)) (t_lax (tc_T k)) (fun _ => None) (t_mu (tc_T k)) (t_sigma_f (tc_T k)) None (t_sign0 (tc_T k))).
      assert (Q : tracer_diffusion (tc_E k) (no_data_env (tc_T k)) (q d) (q d) (tc_uv k) (tc_elev k) (fun _ => (0, 0))
        = tracer_diffusion (tc_E k) T1 (q d) (q d) (tc_uv k) (tc_elev k) (fun _ => (0, 0))).
      { unfold tracer_diffusion, T1. cbn [no_data_env t_mu t_dg t_sigma_f t_bnd]. rewrite Emu. f_equal. f_equal.
        unfold ds. apply integral_ext. intros b _. destruct (t_bnd (tc_T k) (m_marker (e_mesh (tc_E k)) b)) as [tb|] eqn:Etb; [|reflexivity].
        cbn [option_map]. cbn [no_data_bnd tb_diff_flux]. specialize (D1 _ _ Etb).
        destruct (tb_diff_flux tb); [|contradiction]. cbn [option_map]. ring. }
      rewrite Q.
      assert (tracer_diffusion (tc_E k) T1 (q d) (q d) (tc_uv k) (tc_elev k) (fun _ => (0, 0)) <= 0); [|lra].
      apply (C50_diffusion_dissipates (tc_E k) T1 mu).
      * rewrite Hm. exact Hw.
      * exact Emu.
      * reflexivity.
      * exact D2.
      * rewrite Hm. exact D3.
      * rewrite Hm. intro Hdg. apply D4, Hdg.
  - intro Hd. unfold spread_gain. rewrite (dx_zero M); [ring|]. intros p Hp. rewrite (Hd p Hp). ring.
Qed.

(** a flow in which tracers do not move apart *)
Definition calm (k : tcase) : Prop :=
  transport W M k /\ fed_inflow M k /\ proper_diffusion W M k /\ divergence_free M k.

Lemma tloss_pos : positive_weights M -> forall k, calm k -> forall d, 0 <= tloss k d.
Proof.
  intros Hw k (Ht & Hi & Hp & Hd) d. destruct (C85_losses k d Ht Hi) as (_ & L & G).
  destruct (L Hw Hp) as (L1 & L2 & L3). unfold tloss. rewrite (G Hd). lra.
Qed.

(* ------------------------------------------------------------------ *)
(** * Linear systems of the size of the space *)
Lemma rows_out : forall k c i, (n <= i)%nat -> rows k c i = 0.
Proof. intros k c i Hi. unfold tvec, tracer_vector. destruct (Nat.ltb_spec i n); [lia|reflexivity]. Qed.
Lemma mass_out : forall c i, (n <= i)%nat -> mass c i = c i.
Proof. intros c i Hi. unfold tracer_mass. destruct (Nat.ltb_spec i n); [lia|reflexivity]. Qed.
Lemma q_ext : forall c d, (forall i, (i < n)%nat -> c i = d i) -> q c = q d.
Proof. intros c d H. unfold tracer_of. apply comb_ext. exact H. Qed.
Lemma mass_local : forall c d, (forall i, (i < n)%nat -> c i = d i) -> forall i, (i < n)%nat -> mass c i = mass d i.
Proof. intros c d H i Hi. unfold tracer_mass. apply Nat.ltb_lt in Hi. rewrite Hi, (q_ext c d H). reflexivity. Qed.
Lemma rows_local : forall k c d, (forall i, (i < n)%nat -> c i = d i) -> forall i, rows k c i = rows k d i.
Proof. intros k c d H i. unfold tvec, tracer_vector. rewrite (q_ext c d H). reflexivity. Qed.

Lemma space_onto : forall L : (nat -> R) -> nat -> R,
  (forall u a v i, L (plus u a v) i = L u i + a * L v i) ->
  (forall u v, (forall i, (i < n)%nat -> u i = v i) -> forall i, (i < n)%nat -> L u i = L v i) ->
  (forall u i, (n <= i)%nat -> L u i = u i) ->
  (forall u, (forall i, (i < n)%nat -> L u i = 0) -> forall i, (i < n)%nat -> u i = 0) ->
  forall b, exists u, forall i, L u i = b i.
Proof.
  intros L Hl Hloc Hout Hinj b.
  destruct (linear_onto n L) with (b := b) as (c & Hc).
  - intros u a v i _. apply (Hl u a v i).
  - exact Hloc.
  - exact Hinj.
  - exists (fun i => if Nat.ltb i n then c i else b i). intro i. destruct (Nat.ltb_spec i n) as [Hi|Hi].
    + rewrite <- (Hc i Hi). apply Hloc; [|exact Hi]. intros j Hj. apply Nat.ltb_lt in Hj. rewrite Hj. reflexivity.
    + rewrite Hout by exact Hi. destruct (Nat.ltb_spec i n); [lia|reflexivity].
Qed.

Lemma work_zero : forall v r, (forall i, (i < n)%nat -> r i = 0) -> work v r = 0.
Proof. intros v r H. unfold work, row_sum. apply rsum_zero. intros i Hi. rewrite H by exact Hi. ring. Qed.

Lemma tsystem_onto : forall tau k b, positive_weights M -> calm k -> tindependent W M -> 0 <= tau ->
  exists u, forall i, mass u i + (- tau) * rows (no_data k) u i = b i.
Proof.
  intros tau k b Hw Hk Hin Ht.
  apply (space_onto (fun u i => mass u i + (- tau) * rows (no_data k) u i)).
  - intros u a v i. rewrite mass_lin, rows_linear0. ring.
  - intros u v H i Hi. rewrite (mass_local u v H i Hi), (rows_local _ u v H i). reflexivity.
  - intros u i Hi. rewrite mass_out, rows_out by exact Hi. ring.
  - intros u Hu. apply Hin.
    assert (Q : work u (fun i => mass u i + (- tau) * rows (no_data k) u i) = 0) by (apply work_zero; exact Hu).
    pose proof Hk as (K1 & K2 & _).
    rewrite work_lin, work_mass, work_rows, form_self in Q by assumption.
    pose proof (var_pos Hw u) as P. rewrite var_prod in *. pose proof (tloss_pos Hw k Hk u) as L.
    assert (0 <= tau * tloss k u) by (apply Rmult_le_pos; assumption). lra.
Qed.

Lemma mass_inj : tindependent W M -> forall u v, (forall i, mass u i = mass v i) -> u = v.
Proof.
  intros Hin u v H. apply functional_extensionality. intro i. destruct (le_lt_dec n i) as [Hi|Hi].
  - specialize (H i). rewrite !mass_out in H by exact Hi. exact H.
  - assert (Q : var (plus u (-1) v) = 0).
    { rewrite var_prod, <- work_mass. apply work_zero. intros j _. rewrite mass_lin, H. ring. }
    specialize (Hin _ Q i Hi). unfold plus in Hin. lra.
Qed.

(* ------------------------------------------------------------------ *)
(** * The theta scheme *)
Lemma var_change : forall d d' theta, let m := plus d theta (plus d' (-1) d) in
  var d' = var d + 2 * tprod (plus d' (-1) d) m - (2 * theta - 1) * var (plus d' (-1) d).
Proof.
  intros d d' theta m. set (e := plus d' (-1) d) in *.
  assert (E1 : d' = plus d 1 e) by (apply functional_extensionality; intro i; unfold e, plus; ring).
  assert (Q1 : tprod e m = tprod d e + theta * tprod e e).
  { unfold m. rewrite tprod_sym, tprod_lin. reflexivity. }
  assert (Q2 : tprod d' d' = tprod d d + 2 * tprod d e + tprod e e).
  { rewrite E1. rewrite tprod_lin, (tprod_sym d), (tprod_sym e), !tprod_lin. rewrite (tprod_sym e d). ring. }
  rewrite !var_prod, Q2, Q1. ring.
Qed.

Lemma theta_identity : forall kn ko dt theta c c' d d',
  theta = 1 \/ no_data kn = no_data ko -> transport W M kn -> fed_inflow M kn ->
  theta_step mass (rows kn) (rows ko) dt theta c c' -> theta_step mass (rows kn) (rows ko) dt theta d d' ->
  let e := plus c (-1) d in let e' := plus c' (-1) d' in
  let m := plus e theta (plus e' (-1) e) in
  var e' = var e - 2 * dt * tloss kn m - (2 * theta - 1) * var (plus e' (-1) e).
Proof.
  intros kn ko dt theta c c' d d' Hst Ht Hi H1 H2 e e' m.
  rewrite (var_change e e' theta). fold m.
  enough (Q : tprod (plus e' (-1) e) m = - (dt * tloss kn m)) by (rewrite Q; ring).
  rewrite <- work_mass.
  transitivity (work m (fun i => 0 + dt * rows (no_data kn) m i)).
  - apply work_ext. intro i.
    assert (A : mass (plus e' (-1) e) i = dt * (theta * rows (no_data kn) e' i + (1 - theta) * rows (no_data ko) e i)).
    { rewrite mass_lin. unfold e, e'. rewrite !mass_lin. specialize (H1 i). specialize (H2 i).
      rewrite <- !rows_differ. lra. }
    rewrite A. unfold m. rewrite rows_linear0, rows_linear0.
    destruct Hst as [-> |Hst]; [ring|]. rewrite <- Hst. ring.
  - rewrite work_lin, work_zero by reflexivity. rewrite work_rows, form_self by assumption. ring.
Qed.

Variable case : (string -> option Val) -> (string -> option Val) -> Bd -> tcase.
Variable keys : list string.
Variable kind : string -> ckind.
Variable solve : ((nat -> R) -> nat -> R) -> (nat -> R) -> nat -> R.
Variable dt : R.
Variable uf : option (@forcing Val Bd).
Variable theta : R.
Variable semi : bool.
Notation step := (cn_advance keys kind (TRes W case conservative) mass solve dt uf theta semi).
Notation seen co := (case (view kind co) (view kind co) (oth co)).
Notation seen_old co := (case (view_old kind co) (view_old kind co) (oth co)).

(** the flow does not change in time (sources and values at boundaries may), or
    the scheme is fully implicit *)
Definition steady_flow : Prop :=
  theta = 1 \/ exists k0, forall f fo b, no_data (case f fo b) = k0.

(** Every step has a solution. *)
Theorem C85_step_exists : positive_weights M -> (forall f fo b, calm (case f fo b)) -> tindependent W M ->
  0 <= dt -> 0 <= theta ->
  forall co c, tsolvable W M case conservative kind dt theta semi co c.
Proof.
  intros Hw Hk Hin Hdt Hth co c. unfold tsolvable, theta_step, TRes.
  destruct (tsystem_onto (dt * theta) (seen co)
    (fun i => mass c i + dt * theta * rows (seen co) (fun _ => 0) i + dt * (1 - theta) * rows (seen_old co) c i)) as (u & Hu);
    [assumption|apply Hk|assumption|apply Rmult_le_pos; assumption|].
  exists u. intro i. specialize (Hu i).
  assert (Q : rows (seen co) u i = rows (seen co) (fun _ => 0) i + rows (no_data (seen co)) u i).
  { pose proof (rows_affine (seen co) (fun _ => 0) 1 u i) as A.
    replace (plus (fun _ => 0) 1 u) with u in A by (apply functional_extensionality; intro; unfold plus; ring). lra. }
  rewrite Q. lra.
Qed.

(** Two runs with the same flow, values at the boundaries and sources: the budget
    of their difference is exact. *)
Theorem C85_theta_budget : forall t (s s' : @tst nat Val Bd), tco s = tco s' -> exact_solver solve ->
  let co := force_co uf (t + dt) (tco s) in
  tsolvable W M case conservative kind dt theta semi co (tsol s) ->
  tsolvable W M case conservative kind dt theta semi co (tsol s') ->
  theta = 1 \/ no_data (seen co) = no_data (seen_old co) ->
  transport W M (seen co) -> fed_inflow M (seen co) ->
  let d := fun i => tsol s i - tsol s' i in
  let d' := fun i => tsol (step t s) i - tsol (step t s') i in
  tco (step t s) = tco (step t s') /\
  var d' = var d - 2 * dt * tloss (seen co) (fun i => d i + theta * (d' i - d i))
           - (2 * theta - 1) * var (fun i => d' i - d i).
Proof.
  intros t s s' Hco Hs co Hex Hex' Hst Ht Hi d d'.
  assert (Hex2 : tsolvable W M case conservative kind dt theta semi (force_co uf (t + dt) (tco s')) (tsol s'))
    by (rewrite <- Hco; exact Hex').
  destruct (cn_advance_spec keys kind (TRes W case conservative) mass solve dt uf theta semi t s Hs Hex) as [Q1 E1].
  destruct (cn_advance_spec keys kind (TRes W case conservative) mass solve dt uf theta semi t s' Hs Hex2) as [Q2 E2].
  rewrite <- Hco in Q2, E2. fold co in Q1, E1, Q2, E2. unfold TRes in Q1, Q2.
  split; [rewrite E1, E2; reflexivity|].
  pose proof (theta_identity _ _ _ _ _ _ _ _ Hst Ht Hi Q1 Q2) as P. cbv zeta in P.
  assert (Ed : forall u v : nat -> R, plus u (-1) v = fun i => u i - v i)
    by (intros u v; apply functional_extensionality; intro; unfold plus; ring).
  rewrite !Ed in P. exact P.
Qed.

(** No two such runs move apart, whatever their length and the time step. *)
Theorem C85_never_apart : forall ts1 ts2 (s s' : @tst nat Val Bd), tco s = tco s' ->
  exact_solver solve -> positive_weights M -> tindependent W M ->
  (forall f fo b, calm (case f fo b)) -> steady_flow -> 0 <= dt -> 1/2 <= theta ->
  let run := fun s ts => tsol (fold_left (fun s t => step t s) ts s) in
  spread W M (run s (ts1 ++ ts2)%list) (run s' (ts1 ++ ts2)%list) <= spread W M (run s ts1) (run s' ts1).
Proof.
  intros ts1 ts2 s s' Hco Hs Hw Hin Hk Hst Hdt Hth run. unfold run.
  assert (Hex : forall co c, tsolvable W M case conservative kind dt theta semi co c)
    by (apply C85_step_exists; try assumption; lra).
  assert (Hone : forall t (s s' : @tst nat Val Bd), tco s = tco s' ->
    tco (step t s) = tco (step t s') /\ spread W M (tsol (step t s)) (tsol (step t s')) <= spread W M (tsol s) (tsol s')).
  { clear s s' Hco run. intros t s s' Hco.
    assert (H0 : theta = 1 \/ no_data (seen (force_co uf (t + dt) (tco s))) = no_data (seen_old (force_co uf (t + dt) (tco s)))).
    { destruct Hst as [-> |(k0 & H0)]; [left; reflexivity|right; rewrite !H0; reflexivity]. }
    destruct (Hk (view kind (force_co uf (t + dt) (tco s))) (view kind (force_co uf (t + dt) (tco s))) (oth (force_co uf (t + dt) (tco s)))) as (K1 & K2 & K3).
    destruct (C85_theta_budget t s s' Hco Hs (Hex _ _) (Hex _ _) H0 K1 K2) as (E1 & Q). split; [exact E1|].
    unfold spread. rewrite Q.
    set (m := fun i => _ + theta * _). set (e := fun i => _ - _ - (_ - _)).
    pose proof (tloss_pos Hw _ (Hk _ _ _ : calm (seen (force_co uf (t + dt) (tco s)))) m) as L.
    pose proof (var_pos Hw e) as P.
    assert (0 <= 2 * dt * tloss (seen (force_co uf (t + dt) (tco s))) m) by (apply Rmult_le_pos; [lra|exact L]).
    assert (0 <= (2 * theta - 1) * var e) by (apply Rmult_le_pos; [lra|exact P]). lra. }
  assert (Hco1 : tco (fold_left (fun s t => step t s) ts1 s) = tco (fold_left (fun s t => step t s) ts1 s')).
  { revert s s' Hco. induction ts1 as [|t ts IH]; intros s s' Hco; cbn [fold_left]; [exact Hco|].
    apply IH. apply Hone, Hco. }
  rewrite !fold_left_app. revert Hco1.
  generalize (fold_left (fun s t => step t s) ts1 s) (fold_left (fun s t => step t s) ts1 s').
  clear s s' Hco run ts1. induction ts2 as [|t ts IH]; intros s s' Hco; cbn [fold_left]; [lra|].
  destruct (Hone t s s' Hco) as (E1 & L1). eapply Rle_trans; [apply IH; exact E1|exact L1].
Qed.

Lemma rows_zero : forall k i, rows (no_data k) (fun _ => 0) i = 0.
Proof.
  intros k i. pose proof (rows_linear0 k (fun _ => 0) (-1) (fun _ => 0) i) as Q.
  replace (plus (fun _ => 0) (-1) (fun _ => 0)) with (fun _ : nat => 0) in Q by (apply functional_extensionality; intro; unfold plus; ring).
  lra.
Qed.
Lemma mass_zero : forall i, mass (fun _ => 0) i = 0.
Proof.
  intros i. pose proof (mass_lin (fun _ => 0) (-1) (fun _ => 0) i) as Q.
  replace (plus (fun _ => 0) (-1) (fun _ => 0)) with (fun _ : nat => 0) in Q by (apply functional_extensionality; intro; unfold plus; ring).
  lra.
Qed.

(** Without sources and with zero at the inflow the variance itself has an exact
    budget... *)
Theorem C85_variance_budget : forall t (s : @tst nat Val Bd), exact_solver solve ->
  let co := force_co uf (t + dt) (tco s) in
  tsolvable W M case conservative kind dt theta semi co (tsol s) ->
  theta = 1 \/ seen co = seen_old co ->
  no_data (seen co) = seen co -> no_data (seen_old co) = seen_old co ->
  transport W M (seen co) -> fed_inflow M (seen co) ->
  let c := tsol s in let c' := tsol (step t s) in
  var c' = var c - 2 * dt * tloss (seen co) (fun i => c i + theta * (c' i - c i))
           - (2 * theta - 1) * var (fun i => c' i - c i).
Proof.
  intros t s Hs co Hex Hst N1 N2 Ht Hi c c'.
  destruct (cn_advance_spec keys kind (TRes W case conservative) mass solve dt uf theta semi t s Hs Hex) as [Q1 _].
  fold co c c' in Q1. unfold TRes in Q1. clearbody c'.
  assert (Q2 : theta_step mass (rows (seen co)) (rows (seen_old co)) dt theta (fun _ => 0) (fun _ => 0)).
  { intro i. rewrite <- N1, <- N2. rewrite !rows_zero. ring. }
  assert (Hst' : theta = 1 \/ no_data (seen co) = no_data (seen_old co)).
  { destruct Hst as [-> | ->]; [left|right]; reflexivity. }
  pose proof (theta_identity _ _ _ _ _ _ _ _ Hst' Ht Hi Q1 Q2) as P. cbv zeta in P.
  assert (Ed : forall u v : nat -> R, plus u (-1) v = fun i => u i - v i)
    by (intros u v; apply functional_extensionality; intro; unfold plus; ring).
  assert (Ez : forall u : nat -> R, (fun i => u i - 0) = u) by (intro u; apply functional_extensionality; intro; ring).
  rewrite !Ed in P. rewrite !Ez in P.
  replace (fun i => c' i - 0 - (c i - 0)) with (fun i => c' i - c i) in P by (apply functional_extensionality; intro; ring).
  exact P.
Qed.

(** ... and never grows. *)
Theorem C85_never_grows : forall ts1 ts2 (s : @tst nat Val Bd),
  exact_solver solve -> positive_weights M -> tindependent W M ->
  (forall f fo b, calm (case f fo b)) -> (forall f fo b, no_data (case f fo b) = case f fo b) ->
  steady_flow -> 0 <= dt -> 1/2 <= theta ->
  let run := fun ts => tsol (fold_left (fun s t => step t s) ts s) in
  var (run (ts1 ++ ts2)%list) <= var (run ts1).
Proof.
  intros ts1 ts2 s Hs Hw Hin Hk Hn Hst Hdt Hth run. unfold run. rewrite fold_left_app.
  assert (Hex : forall co c, tsolvable W M case conservative kind dt theta semi co c)
    by (apply C85_step_exists; try assumption; lra).
  generalize (fold_left (fun s t => step t s) ts1 s). clear s run ts1.
  induction ts2 as [|t ts IH]; intro s; cbn [fold_left]; [lra|].
  eapply Rle_trans; [apply IH|].
  assert (H0 : theta = 1 \/ seen (force_co uf (t + dt) (tco s)) = seen_old (force_co uf (t + dt) (tco s))).
  { destruct Hst as [-> |(k0 & H0)]; [left; reflexivity|right]. rewrite <- (Hn (view kind _)), <- (Hn (view_old kind _)), !H0. reflexivity. }
  destruct (Hk (view kind (force_co uf (t + dt) (tco s))) (view kind (force_co uf (t + dt) (tco s))) (oth (force_co uf (t + dt) (tco s)))) as (K1 & K2 & K3).
  rewrite (C85_variance_budget t s Hs (Hex _ _) H0 (Hn _ _ _) (Hn _ _ _) K1 K2).
  set (m := fun i => _ + theta * _). set (e := fun i => _ - _).
  pose proof (tloss_pos Hw _ (Hk _ _ _ : calm (seen (force_co uf (t + dt) (tco s)))) m) as L.
  pose proof (var_pos Hw e) as P.
  assert (0 <= 2 * dt * tloss (seen (force_co uf (t + dt) (tco s))) m) by (apply Rmult_le_pos; [lra|exact L]).
  assert (0 <= (2 * theta - 1) * var e) by (apply Rmult_le_pos; [lra|exact P]). lra.
Qed.

(** nothing that takes variance: continuous tracer, no diffusion, water that goes
    round and nowhere in or out *)
Definition pure_transport (k : tcase) : Prop :=
  e_mesh (tc_E k) = M /\ normal_continuous (tc_E k) (tc_uv k) /\ gauss_square W M (tc_uv k) /\
  t_dg (tc_T k) = false /\ t_lax (tc_T k) = None /\ t_mu (tc_T k) = None /\
  (forall c f, In f (m_facets M) -> s_f (q c) f true = s_f (q c) f false) /\
  (forall b, In b (m_bnds M) -> t_bnd (tc_T k) (m_marker M b) = None /\ unb M (tc_uv k) b = 0) /\
  divergence_free M k.

Lemma pure_calm : forall k, pure_transport k -> calm k.
Proof.
  intros k (P1 & P2 & P3 & P4 & P5 & P6 & P7 & P8 & P9). split; [|split; [|split]].
  - split; [exact P1|]. split; [exact P2|]. split; [exact P3|]. split; [right; exact P7|]. rewrite P5. exact I.
  - intros b Hb. destruct (P8 b Hb) as (-> & ->). lra.
  - intros mu Hm. rewrite P6 in Hm. discriminate.
  - exact P9.
Qed.

Lemma pure_lossless : forall k, pure_transport k -> forall d, tloss k d = 0.
Proof.
  intros k (P1 & P2 & P3 & P4 & P5 & P6 & P7 & P8 & P9) d. unfold tloss, facet_loss, bnd_loss, diff_loss, spread_gain.
  rewrite (dS_zero M), (ds_zero M), (dx_zero M).
  - unfold tracer_diffusion. cbn [no_data_env t_mu]. rewrite P6. ring.
  - intros p Hp. rewrite (P9 p Hp). ring.
  - intros b Hb. destruct (P8 b Hb) as (_ & ->). rewrite Rabs_R0. ring.
  - intros f Hf. unfold jump. rewrite (P7 d f Hf). ring.
Qed.

(** Then the scheme with offset one half keeps the distance of two runs exactly. *)
Theorem C85_lossless : forall ts (s s' : @tst nat Val Bd), tco s = tco s' ->
  exact_solver solve -> positive_weights M -> tindependent W M ->
  (forall f fo b, pure_transport (case f fo b)) -> steady_flow -> 0 <= dt -> theta = 1/2 ->
  let run := fun s => tsol (fold_left (fun s t => step t s) ts s) in
  spread W M (run s) (run s') = spread W M (tsol s) (tsol s').
Proof.
  intros ts s s' Hco Hs Hw Hin Hk Hst Hdt Hth run. unfold run. clear run.
  assert (Hex : forall co c, tsolvable W M case conservative kind dt theta semi co c).
  { apply C85_step_exists; try assumption; [intros; apply pure_calm, Hk|lra]. }
  revert s s' Hco. induction ts as [|t ts IH]; intros s s' Hco; cbn [fold_left]; [reflexivity|].
  assert (H0 : theta = 1 \/ no_data (seen (force_co uf (t + dt) (tco s))) = no_data (seen_old (force_co uf (t + dt) (tco s)))).
  { destruct Hst as [H1|(k0 & H0)]; [left; exact H1|right; rewrite !H0; reflexivity]. }
  destruct (pure_calm _ (Hk (view kind (force_co uf (t + dt) (tco s))) (view kind (force_co uf (t + dt) (tco s))) (oth (force_co uf (t + dt) (tco s))))) as (K1 & K2 & K3).
  destruct (C85_theta_budget t s s' Hco Hs (Hex _ _) (Hex _ _) H0 K1 K2) as (E1 & Q).
  rewrite IH by exact E1. unfold spread. rewrite Q. rewrite pure_lossless by apply Hk. rewrite Hth. field.
Qed.

(** A step has one solution only. *)
Theorem C85_step_unique : forall co c c1 c2, positive_weights M -> calm (seen co) ->
  0 <= dt -> 0 <= theta ->
  let S := theta_step mass (fun v => TRes W case conservative v (if semi then c else v) (view kind co) (view kind co) (oth co))
             (fun v => TRes W case conservative v v (view_old kind co) (view_old kind co) (oth co)) dt theta c in
  S c1 -> S c2 -> spread W M c1 c2 = 0 /\ (tindependent W M -> c1 = c2).
Proof.
  intros co c c1 c2 Hw Hk Hdt Hth S S1 S2. unfold S, theta_step, TRes in S1, S2.
  assert (Es : spread W M c1 c2 = var (plus c1 (-1) c2)).
  { unfold spread. f_equal. apply functional_extensionality; intro; unfold plus; ring. }
  assert (Hz : var (plus c1 (-1) c2) = 0).
  { pose proof Hk as (K1 & K2 & _).
    assert (Q : work (plus c1 (-1) c2) (mass (plus c1 (-1) c2))
       = work (plus c1 (-1) c2) (fun i => 0 + dt * theta * rows (no_data (seen co)) (plus c1 (-1) c2) i)).
    { apply work_ext. intro i. rewrite mass_lin, <- rows_differ. specialize (S1 i). specialize (S2 i). lra. }
    rewrite work_lin, (work_zero _ (fun _ => 0)), work_mass, work_rows, form_self in Q by (assumption || reflexivity).
    pose proof (var_pos Hw (plus c1 (-1) c2)) as P. pose proof (tloss_pos Hw _ Hk (plus c1 (-1) c2)) as L.
    assert (0 <= dt * theta * tloss (seen co) (plus c1 (-1) c2)) by (repeat apply Rmult_le_pos; assumption).
    rewrite var_prod in *. lra. }
  split; [rewrite Es; exact Hz|]. intro Hin. apply functional_extensionality. intro i.
  destruct (le_lt_dec n i) as [Hi|Hi].
  - specialize (S1 i). specialize (S2 i). rewrite !mass_out, !rows_out in S1 by exact Hi.
    rewrite !mass_out, !rows_out in S2 by exact Hi. lra.
  - specialize (Hin _ Hz i Hi). unfold plus in Hin. lra.
Qed.

(** ** Diagonally implicit Runge-Kutta schemes *)
(** Every implicit scheme except DIRK33, in a steady flow. *)
Theorem C85_dirk_never_apart : forall (En : Type) name T c (caseR : En -> tcase) (Fx : En -> (nat -> R) -> nat -> R)
    solvek semik dte ufe ts1 ts2 (s s' : @st nat En),
  In (name, T, c) implicit_schemes -> name <> "DIRK33"%string -> env s = env s' ->
  positive_weights M -> tindependent W M -> (forall e, calm (caseR e)) ->
  (exists k0, forall e, no_data (caseR e) = k0) ->
  (forall e u i, mass (Fx e u) i = tvec W conservative (caseR e) u i) ->
  exact_solver solvek -> 0 <= dte ->
  let run := fun s ts => sol (fold_left (fun s t => dirk_advance T (fun e u _ => Fx e u) solvek semik dte ufe t s) ts s) in
  spread W M (run s (ts1 ++ ts2)%list) (run s' (ts1 ++ ts2)%list) <= spread W M (run s ts1) (run s' ts1).
Proof.
  intros En name T c caseR Fx solvek semik dte ufe ts1 ts2 s s' Hin Hname Henv Hw Hind Hk (k0 & Hk0) HF Hs Hdt run.
  unfold run.
  set (e0 := env s).
  set (L := fun (u : nat -> R) i => Fx e0 u i - Fx e0 (fun _ => 0) i).
  assert (EL : forall u, L u = plus (Fx e0 u) (-1) (Fx e0 (fun _ => 0)))
    by (intro u; apply functional_extensionality; intro; unfold L, plus; ring).
  assert (ML : forall u i, mass (L u) i = rows (no_data (caseR e0)) u i).
  { intros u i. rewrite EL, mass_lin, !HF.
    transitivity (rows (caseR e0) u i - rows (caseR e0) (fun _ => 0) i); [ring|]. rewrite rows_differ. f_equal.
    apply functional_extensionality; intro; unfold plus; ring. }
  assert (FL : forall e u, Fx e u = plus (L u) 1 (Fx e (fun _ => 0))).
  { intros e u. apply (mass_inj Hind). intro i. rewrite mass_lin, ML, !HF.
    pose proof (rows_differ (caseR e) u (fun _ => 0) i) as Q.
    replace (plus u (-1) (fun _ => 0)) with u in Q by (apply functional_extensionality; intro; unfold plus; ring).
    rewrite Hk0 in Q |- *. lra. }
  assert (Hlin : forall u a v, L (plus u a v) = plus (L u) a (L v)).
  { intros u a v. apply (mass_inj Hind). intro i. rewrite mass_lin, !ML. apply rows_linear0. }
  assert (HL : linear_operator L).
  { split.
    - intros u v x. pose proof (f_equal (fun f => f x) (Hlin u 1 v)) as Q. cbv beta in Q. unfold plus in Q.
      replace (fun y => u y + v y) with (fun y => u y + 1 * v y) by (apply functional_extensionality; intro; ring).
      rewrite Q. ring.
    - intros a u x.
      assert (Z : L (fun _ => 0) x = 0) by (unfold L; ring).
      pose proof (f_equal (fun f => f x) (Hlin (fun _ => 0) a u)) as Q. cbv beta in Q. unfold plus in Q.
      replace (fun y => a * u y) with (fun y => 0 + a * u y) by (apply functional_extensionality; intro; ring).
      rewrite Q, Z. ring. }
  assert (Hz : forall w, tprod (fun _ => 0) w = 0).
  { intro w. pose proof (tprod_lin (fun _ => 0) (-1) (fun _ => 0) w) as Q. unfold plus in Q.
    replace (fun _ : nat => 0 + -1 * 0) with (fun _ : nat => 0) in Q by (apply functional_extensionality; intro; ring). lra. }
  assert (Hip : inner_product tprod).
  { split; [apply tprod_sym|]. split; [|split].
    - intros u v w. rewrite <- (Rmult_1_l (tprod v w)), <- tprod_lin. f_equal. unfold plus.
      apply functional_extensionality; intro; ring.
    - intros a u w. transitivity (tprod (plus (fun _ => 0) a u) w).
      + f_equal. unfold plus. apply functional_extensionality; intro; ring.
      + rewrite tprod_lin, Hz. ring.
    - intro u. rewrite <- var_prod. apply var_pos, Hw. }
  assert (Hdis : dissipative tprod L).
  { intro u. rewrite tprod_sym, <- work_mass. rewrite (work_ext u _ (rows (no_data (caseR e0)) u)) by apply ML.
    destruct (Hk e0) as (K1 & K2 & _).
    rewrite work_rows, form_self by assumption. pose proof (tloss_pos Hw _ (Hk e0) u). lra. }
  assert (Hex : forall i e (base : nat -> R), (i < ns T)%nat -> exists k, k = Fx e (fun x => base x + dte * ta T i i * k x)).
  { intros i e base Hi.
    assert (Ha : 0 <= ta T i i) by (apply (diagonal_nonneg name T c); assumption).
    destruct (tsystem_onto (dte * ta T i i) (caseR e) (fun x => rows (caseR e) base x)) as (k & Hkk);
      [assumption|apply Hk|assumption|apply Rmult_le_pos; assumption|].
    exists k. apply (mass_inj Hind). intro x. rewrite HF.
    change (fun y => base y + dte * ta T i i * k y) with (plus base (dte * ta T i i) k).
    rewrite rows_affine. specialize (Hkk x). lra. }
  assert (Hn : (0 < ns T)%nat).
  { clear - Hin. cbn [In implicit_schemes] in Hin.
    repeat (destruct Hin as [Hin|Hin]; [apply (f_equal (fun p => snd (fst p))) in Hin; cbn [fst snd] in Hin; subst T; cbn; lia|]).
    contradiction. }
  set (adv := fun t s => dirk_advance T (fun e u _ => Fx e u) solvek semik dte ufe t s).
  assert (Hone : forall t (s s' : @st nat En), env s = env s' ->
    env (adv t s) = env (adv t s') /\ spread W M (sol (adv t s)) (sol (adv t s')) <= spread W M (sol s) (sol s')).
  { intros t s1 s2 He.
    assert (Henv2 : env (adv t s1) = env (adv t s2)).
    { unfold adv.
      destruct (dirk_advance_spec T (fun e u _ => Fx e u) solvek semik dte ufe t Hs (fun i e base w Hi => Hex i e base Hi) s1 Hn) as (_ & A1 & _).
      destruct (dirk_advance_spec T (fun e u _ => Fx e u) solvek semik dte ufe t Hs (fun i e base w Hi => Hex i e base Hi) s2 Hn) as (_ & A2 & _).
      rewrite A1, A2, He. reflexivity. }
    split; [exact Henv2|]. clear Henv2.
    pose proof (C24_tendency_form_implicit T Fx solvek semik dte ufe t s1 Hn Hs Hex) as H1.
    pose proof (C24_tendency_form_implicit T Fx solvek semik dte ufe t s2 Hn Hs Hex) as H2.
    cbv zeta in H1, H2. rewrite <- He in H2. fold (adv t s1) in H1. fold (adv t s2) in H2.
    set (n1 := sol (adv t s1)) in *. set (n2 := sol (adv t s2)) in *. clearbody n1 n2.
    assert (EF : Fx = fun e y x => L y x + Fx e (fun _ => 0) x).
    { apply functional_extensionality; intro e. apply functional_extensionality; intro y. rewrite (FL e y) at 1.
      apply functional_extensionality; intro x. unfold plus. ring. }
    assert (H1' : implicit_step (ns T) (ta T) (tb T) (fun e y x => L y x + Fx e (fun _ => 0) x) dte
       (fun i => forced ufe (abscissae t dte (tc T) (S i)) (env s1)) (sol s1) n1) by (rewrite <- EF; exact H1).
    assert (H2' : implicit_step (ns T) (ta T) (tb T) (fun e y x => L y x + Fx e (fun _ => 0) x) dte
       (fun i => forced ufe (abscissae t dte (tc T) (S i)) (env s1)) (sol s2) n2) by (rewrite <- EF; exact H2).
    exact (C70_energy name T c Hin Hname nat En L (fun e => Fx e (fun _ => 0)) dte _ tprod _ _ _ _ HL Hip Hdis Hdt H1' H2'). }
  fold adv.
  assert (Henv1 : env (fold_left (fun s t => adv t s) ts1 s) = env (fold_left (fun s t => adv t s) ts1 s')).
  { clear - Henv Hone. revert s s' Henv. induction ts1 as [|t ts IH]; intros s s' He; cbn [fold_left]; [exact He|].
    apply IH. apply Hone, He. }
  rewrite !fold_left_app.
  change (fun (s0 : st) t => dirk_advance T (fun e u _ => Fx e u) solvek semik dte ufe t s0) with (fun s t => adv t s).
  revert Henv1.
  generalize (fold_left (fun s t => adv t s) ts1 s) (fold_left (fun s t => adv t s) ts1 s').
  clear - Hone. induction ts2 as [|t ts IH]; intros s s' He; cbn [fold_left]; [lra|].
  destruct (Hone t s s' He) as (E1 & L1). eapply Rle_trans; [apply IH; exact E1|exact L1].
Qed.
End Variance.
