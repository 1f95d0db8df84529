(** C40: turbulence closure post-processing respects its limits. *)
From Coq Require Import Reals Lra Lia Psatz.
From Verif Require Import Stability_Model P_Stability Turb_Model.
Open Scope R_scope.

Lemma set_min_ge : forall a x, a <= set_min a x /\ x <= set_min a x.
Proof. intros a x. unfold set_min. destruct (Rlt_dec x a); lra. Qed.
Lemma set_min_max : forall a x, set_min a x = Rmax a x.
Proof. intros a x. unfold set_min. destruct (Rlt_dec x a); [rewrite Rmax_left|rewrite Rmax_right]; lra. Qed.
Theorem C40_clamps : forall a x,
  a <= set_min a x /\ set_max a x <= a /\ set_min a (set_min a x) = set_min a x
  /\ set_max a (set_max a x) = set_max a x
  /\ (a <= x -> set_min a x = x) /\ (x <= a -> set_max a x = x).
Proof.
  intros a x. unfold set_min, set_max.
  destruct (Rlt_dec x a); destruct (Rgt_dec x a); repeat split; intros; try lra;
  repeat (match goal with |- context [Rlt_dec ?u ?v] => destruct (Rlt_dec u v)
                        | |- context [Rgt_dec ?u ?v] => destruct (Rgt_dec u v) end); lra.
Qed.

(** * Frequencies *)
Theorem C40_shear_frequency : forall relaxation minval init gu gv mu mv,
  let '(mu', mv', m2) := shear_solve relaxation minval init gu gv mu mv in
  minval <= m2 /\ mu' ^ 2 + mv' ^ 2 <= m2
  /\ (init = true -> minval <= gu ^ 2 + gv ^ 2 -> m2 = gu ^ 2 + gv ^ 2).
Proof.
  intros. unfold shear_solve. destruct init; cbn zeta.
  - set (q := (1 * gu + (1 - 1) * mu) * _ + _).
    assert (E : q = gu ^ 2 + gv ^ 2) by (unfold q; ring).
    destruct (set_min_ge minval q). repeat split; try lra.
    intros _ H'. rewrite set_min_max. rewrite Rmax_right; lra.
  - destruct (set_min_ge minval ((relaxation * gu + (1 - relaxation) * mu) * (relaxation * gu + (1 - relaxation) * mu)
      + (relaxation * gv + (1 - relaxation) * mv) * (relaxation * gv + (1 - relaxation) * mv))).
    repeat split; try lra; try discriminate.
Qed.

Theorem C40_buoyancy_split : forall n2, let s := split_n2 n2 in
  fst s >= 0 /\ snd s <= 0 /\ (0 <= n2 -> fst s = n2 /\ snd s = 0)
  /\ (n2 < 0 -> fst s = 1e-12 /\ snd s = n2) /\ Rabs (fst s + snd s - n2) <= 1e-12.
Proof.
  intros n2 s. unfold s, split_n2. destruct (Rle_dec 0 n2); cbn [fst snd]; repeat split; intros; try lra.
  - replace (n2 + 0 - n2) with 0 by ring. rewrite Rabs_R0. lra.
  - replace (1e-12 + n2 - n2) with 1e-12 by ring. rewrite Rabs_right; lra.
Qed.

(** * Limits after each update *)
Section Limits.
Variable stab : R -> R -> R -> R -> R * R.
Variable o : gls.

Theorem C40_lower_limits : forall s, let s' := postprocess stab o s in
  o_k_min o <= t_k s' /\ o_psi_min o <= t_psi s' /\ o_eps_min o <= t_eps s'
  /\ o_visc_min o <= t_visc s' /\ o_diff_min o <= t_diff s'.
Proof.
  intros s s'. unfold s', postprocess, post_psi, post_eps; cbn [t_k t_psi t_eps t_visc t_diff].
  repeat split; apply set_min_ge.
Qed.

Theorem C40_length_limits : forall s, let s' := postprocess stab o s in
  (limit_len o = true -> t_len s' <= o_clim o * sqrt (2 * t_k s' / (t_n2_pos s' + 1e-12)))
  /\ (limit_len_min o = true -> limit_len o = false -> o_len_min o <= t_len s')
  /\ (limit_len_min o = true ->
      Rmin (o_len_min o) (o_clim o * sqrt (2 * t_k s' / (t_n2_pos s' + 1e-12))) <= t_len s').
Proof.
  intros s s'. unfold s', postprocess; cbn [t_k t_len t_n2_pos].
  set (k := set_min (o_k_min o) (t_k s)). unfold post_len, len_max, n2_pos_eps.
  set (w := o_clim o * sqrt _). set (l := len_of _ _ _).
  repeat split.
  - intros ->. apply Rmin_r.
  - intros -> ->. apply set_min_ge.
  - intros ->. destruct (set_min_ge (o_len_min o) l). destruct (limit_len o).
    + apply Rmin_glb; [eapply Rle_trans; [apply Rmin_l|assumption]|apply Rmin_r].
    + eapply Rle_trans; [apply Rmin_l|assumption].
Qed.
End Limits.

Definition defaults (ll llm : bool) : gls :=
  mkGLS 3 (3 / 2) (-1) (1 / 2) 1e-6 1e-14 1e-14 1e-12 1e-8 1e-8 (3 / 10) ll true false llm.

(** with both length limits the Galperin limit is applied last: a minimum length above
    it is not respected *)
Theorem C40_len_min_refuted : exists stab o s,
  limit_len_min o = true /\ 0 < o_len_min o /\ t_len (postprocess stab o s) < o_len_min o.
Proof.
  exists (fun _ _ _ _ => (1, 1)), (mkGLS 3 (3 / 2) (-1) (1 / 2) 1e-6 1e-14 1e-14 10 1e-8 1e-8 (3 / 10) true true false true),
    (mkT 1 1 1 1 1 1 2 2 0 1).
  split; [reflexivity|]. split; [cbn; lra|].
  match goal with |- t_len (postprocess ?st ?op ?s) < _ =>
    pose proof (C40_length_limits st op s) as (H & _) end.
  specialize (H eq_refl). eapply Rle_lt_trans; [exact H|]. clear H.
  cbn [postprocess t_k t_n2_pos o_clim o_len_min o_k_min].
  rewrite set_min_max, Rmax_right by lra.
  assert (sqrt (2 * 1 / (2 + 1e-12)) < sqrt (2 * 2)).
  { apply sqrt_lt_1_alt. split.
    - apply Rmult_le_pos; [lra|]. left. apply Rinv_0_lt_compat. lra.
    - apply (Rmult_lt_reg_r (2 + 1e-12)); [lra|]. unfold Rdiv. rewrite Rmult_assoc, Rinv_l by lra. lra. }
  rewrite sqrt_square in H by lra. lra.
Qed.

(** * Length scale, psi and epsilon *)
Lemma Rpower_pos : forall x y, 0 < Rpower x y.
Proof. intros. unfold Rpower. apply exp_pos. Qed.
Lemma Rpower_opp_mult : forall x n, 0 < x -> n <> 0 -> Rpower (Rpower x n) (- 1 / n) = / x.
Proof.
  intros x n Hx Hn. rewrite Rpower_mult. replace (n * (- 1 / n)) with (- (1)) by (field; exact Hn).
  rewrite Rpower_Ropp, Rpower_1 by exact Hx. reflexivity.
Qed.

(** psi computed from epsilon gives epsilon back (this is what psi_min and the initial
    psi rely on) *)
Theorem C40_psi_eps_round_trip : forall o k eps,
  o_n o <> 0 -> 0 < eps -> 0 < k -> 0 < o_cmu0 o -> eps_of_psi o k (psi_of_eps o k eps) = eps.
Proof.
  intros o k eps Hn He Hk Hc. unfold eps_of_psi, psi_of_eps.
  set (A := Rpower (o_cmu0 o) _). set (B := Rpower k _).
  assert (HA : 0 < A) by apply Rpower_pos. assert (HB : 0 < B) by apply Rpower_pos.
  rewrite Rpower_opp_mult; [|apply Rmult_lt_0_compat; [nra|apply Rinv_0_lt_compat; exact He]|exact Hn].
  field. repeat split; apply Rgt_not_eq; assumption.
Qed.
Theorem C40_eps_psi_round_trip : forall o k psi,
  o_n o <> 0 -> 0 < psi -> 0 < k -> 0 < o_cmu0 o -> psi_of_eps o k (eps_of_psi o k psi) = psi.
Proof.
  intros o k psi Hn He Hk Hc. unfold eps_of_psi, psi_of_eps.
  set (A := Rpower (o_cmu0 o) _). set (B := Rpower k _).
  assert (HA : 0 < A) by apply Rpower_pos. assert (HB : 0 < B) by apply Rpower_pos.
  pose proof (Rpower_pos psi (-1 / o_n o)) as HC. 
  replace (A * B * / (A * B * Rpower psi (-1 / o_n o))) with (/ Rpower psi (-1 / o_n o))
    by (field; repeat split; apply Rgt_not_eq; assumption).
  rewrite <- Rpower_Ropp, Rpower_mult.
  replace (- (-1 / o_n o) * o_n o) with 1 by (field; exact Hn). apply Rpower_1. exact He.
Qed.
(** the length scale that defines psi: psi = cmu0^p k^m l^n *)
Definition psi_of_len (o : gls) (k l : R) : R :=
  Rpower (o_cmu0 o) (o_p o) * Rpower k (o_m o) * Rpower l (o_n o).
Lemma Rpower_mult_n : forall a b n, 0 < a -> 0 < b -> Rpower (a * b) n = Rpower a n * Rpower b n.
Proof. intros. symmetry. apply Rpower_mult_distr; assumption. Qed.
Theorem C40_psi_definition : forall o k l,
  o_n o <> 0 -> 0 < l -> 0 < k -> 0 < o_cmu0 o ->
  psi_of_eps o k (len_of o k l) = psi_of_len o k l
  /\ len_of o k (len_of o k l) = l.
Proof.
  intros o k l Hn Hl Hk Hc. unfold psi_of_eps, psi_of_len, len_of.
  assert (E3 : o_cmu0 o ^ 3 = Rpower (o_cmu0 o) 3)
    by (replace 3 with (INR 3) by (simpl; lra); rewrite Rpower_pow by exact Hc; reflexivity).
  pose proof (Rpower_pos k (3 / 2)) as HK. assert (HC : 0 < o_cmu0 o ^ 3) by (apply pow_lt; exact Hc).
  split.
  - rewrite (Rpower_plus 3), (Rpower_plus (3 / 2)), <- E3.
    replace (o_cmu0 o ^ 3 * Rpower (o_cmu0 o) (o_p o / o_n o) * (Rpower k (3 / 2) * Rpower k (o_m o / o_n o))
             * / (o_cmu0 o ^ 3 * Rpower k (3 / 2) / l))
      with (Rpower (o_cmu0 o) (o_p o / o_n o) * Rpower k (o_m o / o_n o) * l)
      by (field; repeat split; apply Rgt_not_eq; assumption).
    rewrite !Rpower_mult_n; try assumption; try apply Rmult_lt_0_compat; try apply Rpower_pos.
    rewrite !Rpower_mult. replace (o_p o / o_n o * o_n o) with (o_p o) by (field; exact Hn).
    replace (o_m o / o_n o * o_n o) with (o_m o) by (field; exact Hn). reflexivity.
  - field. repeat split; apply Rgt_not_eq; assumption.
Qed.

(** the k-epsilon closure: psi is epsilon *)
Theorem C40_k_epsilon : forall o k psi, o_p o = 3 -> o_m o = 3 / 2 -> o_n o = -1 ->
  0 < k -> 0 < psi -> 0 < o_cmu0 o -> eps_of_psi o k psi = psi.
Proof.
  intros o k psi Hp Hm Hn Hk Hpsi Hc. unfold eps_of_psi. rewrite Hp, Hm, Hn.
  replace (3 + 3 / -1) with 0 by field. replace (3 / 2 + 3 / 2 / -1) with 0 by field.
  replace (-1 / -1) with 1 by field. rewrite !Rpower_O, Rpower_1 by assumption. ring.
Qed.

(** the limit on psi is the Galperin limit on the length scale it stands for *)
Lemma psi_limit_is_len : forall o k n2, o_n o <> 0 -> 0 < k -> 0 < o_cmu0 o -> 0 < o_clim o -> 0 <= n2 ->
  psi_limit o k n2 = psi_of_len o k (len_max o k n2).
Proof.
  intros o k n2 Hn Hk Hc Hcl Hn2. unfold psi_limit, psi_of_len, len_max, n2_pos_eps.
  assert (HN : 0 < n2 + 1e-12) by lra.
  assert (H2 : 0 < sqrt 2) by (apply sqrt_lt_R0; lra).
  assert (ES : sqrt (2 * k / (n2 + 1e-12)) = sqrt 2 * Rpower k 0.5 * Rpower (n2 + 1e-12) (- 0.5)).
  { unfold Rdiv. rewrite sqrt_mult by (try lra; left; apply Rinv_0_lt_compat; exact HN).
    rewrite sqrt_mult by lra. replace (- 0.5) with (- / 2) by lra. rewrite Rpower_Ropp. replace 0.5 with (/ 2) by lra.
    rewrite !Rpower_sqrt by assumption. rewrite sqrt_inv. reflexivity. }
  rewrite ES.
  rewrite (Rpower_plus (o_m o / o_n o)).
  set (P := Rpower (o_cmu0 o) (o_p o / o_n o)). set (M := Rpower k (o_m o / o_n o)).
  set (K := Rpower k 0.5). set (N := Rpower (n2 + 1e-12) (- 0.5)).
  assert (HP : 0 < P) by apply Rpower_pos. assert (HM : 0 < M) by apply Rpower_pos.
  assert (HK : 0 < K) by apply Rpower_pos. assert (HNn : 0 < N) by apply Rpower_pos.
  replace (sqrt 2 * o_clim o * P * (M * K) * N) with (P * M * (o_clim o * (sqrt 2 * K * N))) by ring.
  rewrite (Rpower_mult_n (P * M)); [|nra|repeat apply Rmult_lt_0_compat; assumption].
  rewrite (Rpower_mult_n P M) by assumption. unfold P, M. rewrite !Rpower_mult.
  replace (o_p o / o_n o * o_n o) with (o_p o) by (field; exact Hn).
  replace (o_m o / o_n o * o_n o) with (o_m o) by (field; exact Hn). reflexivity.
Qed.
Lemma Rpower_decr : forall x y n, n < 0 -> 0 < x -> 0 < y -> Rpower x n <= Rpower y n -> y <= x.
Proof.
  intros x y n Hn Hx Hy H. apply Rnot_lt_le. intro F.
  assert (E : Rpower y n < Rpower x n).
  { unfold Rpower. apply exp_increasing. pose proof (ln_increasing x y Hx F). nra. }
  lra.
Qed.

(** Galperin limit after the update, default configuration (limit_psi, n < 0): the
    length scale l with psi = cmu0^p k^m l^n satisfies l <= c_lim sqrt(2 k / N^2) *)
Theorem C40_galperin_from_psi : forall stab o s l, let s' := postprocess stab o s in
  limit_psi o = true -> o_n o < 0 -> 0 < o_k_min o -> 0 < o_cmu0 o -> 0 < o_clim o ->
  0 <= t_n2_pos s -> 0 < l ->
  t_psi s' = psi_of_len o (t_k s') l ->
  l <= o_clim o * sqrt (2 * t_k s' / (t_n2_pos s' + 1e-12)).
Proof.
  intros stab o s l s' Hlim Hn Hk Hc Hcl Hn2 Hl HE.
  unfold s', postprocess in *. cbn [t_psi t_k t_n2_pos] in *.
  set (k := set_min (o_k_min o) (t_k s)) in *.
  assert (HK : 0 < k) by (destruct (set_min_ge (o_k_min o) (t_k s)); unfold k; lra).
  assert (HL : psi_limit o k (t_n2_pos s) <= psi_of_len o k l).
  { rewrite <- HE. unfold post_psi. rewrite Hlim. destruct (Rgt_dec (o_n o) 0) as [F|_]; [lra|].
    eapply Rle_trans; [apply Rmax_r|]. apply set_min_ge. }
  rewrite psi_limit_is_len in HL by (try assumption; lra).
  unfold psi_of_len in HL. change (l <= len_max o k (t_n2_pos s)).
  apply Rmult_le_reg_l in HL; [|apply Rmult_lt_0_compat; apply Rpower_pos].
  apply (Rpower_decr _ _ (o_n o)); try assumption.
  apply Rmult_lt_0_compat; [exact Hcl|]. apply sqrt_lt_R0.
  apply Rmult_lt_0_compat; [lra|]. apply Rinv_0_lt_compat. unfold n2_pos_eps. lra.
Qed.

(** with limit_eps: eps >= cmu0^3/(sqrt 2 c_lim) N k, so the unlimited length scale
    cmu0^3 k^(3/2)/eps obeys l^2 N^2 <= 2 c_lim^2 k *)
Theorem C40_galperin_from_eps : forall stab o s, let s' := postprocess stab o s in
  limit_eps o = true -> 0 < o_k_min o -> 0 < o_cmu0 o -> 0 < o_clim o -> 0 < o_eps_min o ->
  0 <= t_n2_pos s ->
  len_of o (t_k s') (t_eps s') ^ 2 * t_n2_pos s' <= 2 * o_clim o ^ 2 * t_k s'.
Proof.
  intros stab o s s' Hlim Hk Hc Hcl He Hn2.
  unfold s', postprocess; cbn [t_eps t_k t_n2_pos].
  set (k := set_min (o_k_min o) (t_k s)).
  assert (HK : 0 < k) by (destruct (set_min_ge (o_k_min o) (t_k s)); unfold k; lra).
  set (psi := post_psi o k (t_n2_pos s) (t_psi s)).
  set (eps := post_eps o k (t_n2_pos s) psi).
  assert (H1 : o_eps_min o <= eps) by apply set_min_ge.
  assert (H2 : o_cmu0 o ^ 3 / (sqrt 2 * o_clim o) * sqrt (t_n2_pos s) * k <= eps).
  { unfold eps, post_eps. rewrite Hlim. eapply Rle_trans; [apply Rmax_r|apply set_min_ge]. }
  unfold len_of. assert (ES : Rpower k (3 / 2) ^ 2 = k ^ 3).
  { rewrite <- Rpower_pow by apply Rpower_pos. rewrite Rpower_mult.
    replace (3 / 2 * INR 2) with (INR 3) by (simpl; lra). apply Rpower_pow. exact HK. }
  set (c3 := o_cmu0 o ^ 3) in *. assert (HC : 0 < c3) by (apply pow_lt; exact Hc).
  set (r := sqrt 2) in *. assert (Hr : r * r = 2) by (apply sqrt_sqrt; lra).
  assert (Hr0 : 0 < r) by (apply sqrt_lt_R0; lra).
  set (nn := sqrt (t_n2_pos s)) in *. assert (Hnn : nn * nn = t_n2_pos s) by (apply sqrt_sqrt; exact Hn2).
  assert (Hnn0 : 0 <= nn) by apply sqrt_pos.
  replace ((c3 * Rpower k (3 / 2) / eps) ^ 2) with (c3 ^ 2 * (Rpower k (3 / 2) ^ 2) / eps ^ 2)
    by (field; lra).
  rewrite ES, <- Hnn.
  assert (H3 : c3 * nn * k <= eps * (r * o_clim o)).
  { apply (Rmult_le_compat_r (r * o_clim o)) in H2; [|nra].
    replace (c3 / (r * o_clim o) * nn * k * (r * o_clim o)) with (c3 * nn * k) in H2
      by (field; split; apply Rgt_not_eq; assumption). exact H2. }
  assert (H4 : (c3 * nn * k) ^ 2 <= (eps * (r * o_clim o)) ^ 2).
  { apply pow_incr. split; [|exact H3]. repeat apply Rmult_le_pos; lra. }
  assert (He2 : 0 < eps ^ 2) by (apply pow_lt; lra).
  apply (Rmult_le_reg_r (eps ^ 2)); [exact He2|].
  replace (c3 ^ 2 * k ^ 3 / eps ^ 2 * (nn * nn) * eps ^ 2) with ((c3 * nn * k) ^ 2 * k) by (field; lra).
  replace (2 * o_clim o ^ 2 * k * eps ^ 2) with ((eps * (r * o_clim o)) ^ 2 * k) by (rewrite <- Hr; ring).
  apply Rmult_le_compat_r; lra.
Qed.

(** for n > 0 the lower bound on psi, applied last, can break the Galperin limit *)
Theorem C40_galperin_positive_n_refuted : exists stab o s l, let s' := postprocess stab o s in
  limit_psi o = true /\ 0 < o_n o /\ 0 < o_psi_min o /\ 0 < l
  /\ t_psi s' = psi_of_len o (t_k s') l
  /\ l > o_clim o * sqrt (2 * t_k s' / (t_n2_pos s' + 1e-12)).
Proof.
  exists (fun _ _ _ _ => (1, 1)), (mkGLS 0 0 1 1 1e-6 10 1e-14 1e-12 1e-8 1e-8 (3 / 10) false true false true),
    (mkT 1 1 1 1 1 1 2 2 0 1), 10.
  cbv zeta. split; [reflexivity|]. split; [cbn; lra|]. split; [cbn; lra|]. split; [lra|].
  assert (HS : sqrt (2 * 1 / (2 + 1e-12)) < 2).
  { assert (sqrt (2 * 1 / (2 + 1e-12)) < sqrt (2 * 2)).
    { apply sqrt_lt_1_alt. split.
      - apply Rmult_le_pos; [lra|]. left. apply Rinv_0_lt_compat. lra.
      - apply (Rmult_lt_reg_r (2 + 1e-12)); [lra|]. unfold Rdiv. rewrite Rmult_assoc, Rinv_l by lra. lra. }
    rewrite sqrt_square in H by lra. exact H. }
  cbn [postprocess t_psi t_k t_n2_pos o_clim o_k_min].
  replace (set_min 1e-6 1) with 1 by (rewrite set_min_max, Rmax_right by lra; reflexivity).
  split; [|lra].
  unfold post_psi. cbn [limit_psi o_n o_psi_min].
  destruct (Rgt_dec 1 0) as [_|F]; [|lra].
  unfold psi_of_len. cbn [o_cmu0 o_p o_m o_n]. rewrite !Rpower_O, Rpower_1 by lra.
  rewrite set_min_max. rewrite Rmax_left; [lra|].
  eapply Rle_trans; [apply Rmin_l|]. lra.
Qed.

(** repeating the post-processing changes nothing *)
Theorem C40_postprocess_idempotent : forall stab o s,
  postprocess stab o (postprocess stab o s) = postprocess stab o s.
Proof.
  intros stab o s. unfold postprocess at 1.
  set (s1 := postprocess stab o s).
  assert (Ek : set_min (o_k_min o) (t_k s1) = t_k s1).
  { unfold s1, postprocess; cbn [t_k]. rewrite !set_min_max.
    rewrite (Rmax_right (o_k_min o) (Rmax _ _)); [reflexivity|apply Rmax_l]. }
  rewrite Ek.
  assert (En : t_n2_pos s1 = t_n2_pos s /\ t_n2 s1 = t_n2 s /\ t_n2_neg s1 = t_n2_neg s /\ t_m2 s1 = t_m2 s)
    by (repeat split).
  destruct En as (E1 & E2 & E3 & E4). rewrite E1, E2, E3, E4.
  assert (Ep : post_psi o (t_k s1) (t_n2_pos s) (t_psi s1) = t_psi s1).
  { unfold s1, postprocess; cbn [t_k t_psi]. set (k := set_min _ _).
    unfold post_psi. set (v := psi_limit o k (t_n2_pos s)). rewrite !set_min_max.
    destruct (limit_psi o); [|rewrite (Rmax_right (o_psi_min o) (Rmax _ _)); [reflexivity|apply Rmax_l]].
    destruct (Rgt_dec (o_n o) 0).
    - set (a := Rmin (t_psi s) v). destruct (Rle_dec (o_psi_min o) a) as [H|H].
      + rewrite (Rmax_right (o_psi_min o) a) by exact H.
        assert (Rmin a v = a) by (apply Rmin_left; apply Rmin_r). rewrite H0. apply Rmax_right. exact H.
      + rewrite (Rmax_left (o_psi_min o) a) by lra. apply Rmax_left. apply Rmin_l.
    - assert (Hv : v <= Rmax (o_psi_min o) (Rmax (t_psi s) v)).
      { eapply Rle_trans; [|apply Rmax_r]. apply Rmax_r. }
      rewrite (Rmax_left (Rmax (o_psi_min o) (Rmax (t_psi s) v)) v) by exact Hv.
      apply Rmax_right. apply Rmax_l. }
  rewrite Ep. unfold s1, postprocess; reflexivity.
Qed.

(** the limits hold after initialisation and after any number of updates *)
Definition within_limits (o : gls) (s : turb) : Prop :=
  o_k_min o <= t_k s /\ o_psi_min o <= t_psi s /\ o_eps_min o <= t_eps s
  /\ o_visc_min o <= t_visc s /\ o_diff_min o <= t_diff s /\ 0 <= t_n2_pos s /\ t_n2_neg s <= 0.
Theorem C40_limits_hold_throughout : forall stab o continued l_init m2 n2 s
    (history : list (R * option R * R * R)),
  within_limits o (List.fold_left (fun s e => let '(m2, n2, psi, k) := e in
                     update_turbulence stab o m2 n2 psi k s) history
                   (initialize stab o continued l_init m2 n2 s)).
Proof.
  intros. set (s0 := initialize _ _ _ _ _ _ _).
  assert (H0 : within_limits o s0).
  { unfold s0, initialize, within_limits.
    destruct (C40_lower_limits stab o (preprocess m2 n2 (init_fields o continued l_init s))) as (A & B & C & D & E).
    do 5 (split; [assumption|]).
    unfold postprocess; cbn [t_n2_pos t_n2_neg]. unfold init_fields.
    destruct continued; destruct n2 as [v|]; cbn;
    try (destruct (C40_buoyancy_split v) as (F & G & _); split; [apply Rge_le; exact F|exact G]); lra. }
  revert H0. generalize s0. clear. induction history as [|[[[m2 n2] psi] k] hs IH]; intros s H; [exact H|].
  cbn [List.fold_left]. apply IH. unfold update_turbulence, within_limits.
  set (t := mkT k psi _ _ _ _ _ _ _ _).
  destruct (C40_lower_limits stab o t) as (A & B & C & D & E).
  do 5 (split; [assumption|]). unfold t, postprocess; cbn [t_n2_pos t_n2_neg].
  destruct n2 as [v|]; cbn.
  - destruct (C40_buoyancy_split v) as (F & G & _). split; [apply Rge_le; exact F|exact G].
  - destruct H as (_ & _ & _ & _ & _ & F & G). split; assumption.
Qed.

(** initial state: k is the minimum, and epsilon belongs to the initial length scale *)
Theorem C40_initial_state : forall o l_init s, o_n o <> 0 -> 0 < l_init -> 0 < o_k_min o -> 0 < o_cmu0 o ->
  let s' := init_fields o false l_init s in
  t_k s' = o_k_min o /\ len_of o (t_k s') (t_eps s') = l_init
  /\ eps_of_psi o (t_k s') (t_psi s') = t_eps s'
  /\ t_psi s' = psi_of_len o (t_k s') l_init.
Proof.
  intros o l s Hn Hl Hk Hc s'. unfold s', init_fields; cbn [t_k t_eps t_psi].
  destruct (C40_psi_definition o (o_k_min o) l Hn Hl Hk Hc) as (E1 & E2). unfold len_of in E1, E2.
  split; [reflexivity|]. split; [exact E2|]. split; [|exact E1].
  apply C40_psi_eps_round_trip; try assumption.
  apply Rmult_lt_0_compat; [|apply Rinv_0_lt_compat; exact Hl].
  apply Rmult_lt_0_compat; [apply pow_lt; exact Hc|apply Rpower_pos].
Qed.
(** a resumed simulation keeps its turbulence state *)
Theorem C40_resumed_state : forall o l_init s, let s' := init_fields o true l_init s in
  t_k s' = t_k s /\ t_psi s' = t_psi s /\ t_eps s' = t_eps s.
Proof. intros. repeat split. Qed.
(** the tke and psi arguments of assign_initial_conditions have no effect *)
Theorem C40_initial_conditions_ignored_refuted :
  ~ (forall stab o m2 n2 m2' n2' s tke, o_k_min o <= tke ->
       t_k (assign_initial stab o false (Some tke) None m2 n2 m2' n2' s) = tke).
Proof.
  intro F. specialize (F (fun _ _ _ _ => (1, 1)) (defaults false true) 1 None 1 None (mkT 1 1 1 1 1 1 1 1 0 1) 1).
  unfold assign_initial, initialize, init_fields, preprocess in F. cbn [postprocess t_k defaults o_k_min] in F.
  rewrite set_min_max, Rmax_right in F by lra. lra.
Qed.
Theorem C40_initial_conditions_have_no_effect : forall stab o m2 n2 m2' n2' s tke psi,
  let r a b := assign_initial stab o false a b m2 n2 m2' n2' s in
  t_k (r tke psi) = t_k (r None None) /\ t_psi (r tke psi) = t_psi (r None None)
  /\ t_eps (r tke psi) = t_eps (r None None) /\ t_len (r tke psi) = t_len (r None None)
  /\ t_visc (r tke psi) = t_visc (r None None).
Proof.
  intros. unfold r, assign_initial.
  destruct tke, psi; unfold initialize; repeat split; destruct n2, n2'; reflexivity.
Qed.

(** * Positivity of the implicit steps *)
(** minimum over cells 0..n *)
Lemma argmin : forall (x : nat -> R) n, exists i, (i <= n)%nat /\ forall j, (j <= n)%nat -> x i <= x j.
Proof.
  intros x n. induction n as [|n (i & Hi & H)].
  - exists 0%nat. split; [lia|]. intros j Hj. replace j with 0%nat by lia. lra.
  - destruct (Rle_dec (x i) (x (S n))) as [L|L].
    + exists i. split; [lia|]. intros j Hj. destruct (Nat.eq_dec j (S n)) as [->|]; [exact L|apply H; lia].
    + exists (S n). split; [lia|]. intros j Hj. destruct (Nat.eq_dec j (S n)) as [->|]; [lra|].
      assert (x i <= x j) by (apply H; lia). lra.
Qed.
Lemma diffusion_at_min : forall n g x i, (i < n)%nat -> (forall j, 0 <= g j) ->
  (forall j, (j < n)%nat -> x i <= x j) -> below g x i + above n g x i <= 0.
Proof.
  intros n g x i Hi Hg Hmin. unfold below, above.
  assert (H1 : match i with O => 0 | S j => g j * (x i - x j) end <= 0).
  { destruct i as [|j]; [lra|]. pose proof (Hg j). assert (x (S j) <= x j) by (apply Hmin; lia). nra. }
  assert (H2 : (if Nat.ltb (S i) n then g i * (x i - x (S i)) else 0) <= 0).
  { destruct (Nat.ltb_spec (S i) n); [|lra]. pose proof (Hg i). assert (x i <= x (S i)) by (apply Hmin; lia). nra. }
  destruct i; lra.
Qed.
(** a system (h + dt s) x_i = r_i + dt * diffusion has a positive solution *)
Lemma positive_system : forall n g a r x dt, dt > 0 -> (forall j, 0 <= g j) ->
  (forall i, (i < n)%nat -> 0 < a i /\ 0 < r i) ->
  (forall i, (i < n)%nat -> a i * x i = r i + dt * - (below g x i + above n g x i)) ->
  forall i, (i < n)%nat -> 0 < x i.
Proof.
  intros n g a r x dt Hdt Hg Hpos Heq i Hi.
  destruct n as [|n]; [lia|].
  destruct (argmin x n) as (m & Hm & Hmin).
  assert (Hd : below g x m + above (S n) g x m <= 0).
  { apply diffusion_at_min; [lia|exact Hg|]. intros j Hj. apply Hmin. lia. }
  destruct (Hpos m ltac:(lia)) as (Ha & Hr). specialize (Heq m ltac:(lia)).
  assert (0 < x m) by nra. assert (x m <= x i) by (apply Hmin; lia). lra.
Qed.
(** and at most one solution *)
Lemma unique_system : forall n g a r x y dt, dt > 0 -> (forall j, 0 <= g j) ->
  (forall i, (i < n)%nat -> 0 < a i) ->
  (forall i, (i < n)%nat -> a i * x i = r i + dt * - (below g x i + above n g x i)) ->
  (forall i, (i < n)%nat -> a i * y i = r i + dt * - (below g y i + above n g y i)) ->
  forall i, (i < n)%nat -> x i = y i.
Proof.
  assert (One : forall n g a r x y dt, dt > 0 -> (forall j, 0 <= g j) ->
    (forall i, (i < n)%nat -> 0 < a i) ->
    (forall i, (i < n)%nat -> a i * x i = r i + dt * - (below g x i + above n g x i)) ->
    (forall i, (i < n)%nat -> a i * y i = r i + dt * - (below g y i + above n g y i)) ->
    forall i, (i < n)%nat -> y i <= x i).
  { intros n g a r x y dt Hdt Hg Ha Hx Hy i Hi. destruct n as [|n]; [lia|].
    set (d := fun j => x j - y j).
    assert (HD : forall j, (j < S n)%nat -> a j * d j = dt * - (below g d j + above (S n) g d j)).
    { intros j Hj. specialize (Hx j Hj). specialize (Hy j Hj). unfold d.
      assert (E : below g (fun q => x q - y q) j + above (S n) g (fun q => x q - y q) j
                  = (below g x j + above (S n) g x j) - (below g y j + above (S n) g y j)).
      { unfold below, above. destruct j; destruct (Nat.ltb _ _); ring. }
      rewrite E. lra. }
    destruct (argmin d n) as (m & Hm & Hmin).
    assert (Hd : below g d m + above (S n) g d m <= 0).
    { apply diffusion_at_min; [lia|exact Hg|]. intros j Hj. apply Hmin. lia. }
    specialize (HD m ltac:(lia)). specialize (Ha m ltac:(lia)).
    assert (0 <= d m) by nra. assert (d m <= d i) by (apply Hmin; lia). unfold d in *. lra. }
  intros n g a r x y dt Hdt Hg Ha Hx Hy i Hi. apply Rle_antisym; eapply One; eassumption.
Qed.

(** an admissible column: positive heights, k and eps, nonnegative coefficients *)
Definition column_ok (c : column) : Prop :=
  (forall i, 0 < h c i) /\ (forall i, 0 <= visc c i) /\ (forall i, 0 <= diff c i)
  /\ (forall i, 0 < ck c i) /\ (forall i, 0 < ceps c i) /\ (forall i, 0 <= cm2 c i)
  /\ (forall i, 0 <= cpos c i) /\ (forall i, cneg c i <= 0).
Lemma conductance_nonneg : forall c sipg sc, column_ok c -> 0 < sipg -> 0 < sc ->
  forall j, 0 <= conductance c sipg sc j.
Proof.
  intros c sipg sc (Hh & Hv & _) Hs Hc j. unfold conductance.
  assert (A : forall i, 0 < sipg * 1 / h c i) by (intro i; apply Rmult_lt_0_compat; [lra|apply Rinv_0_lt_compat, Hh]).
  assert (B : forall i, 0 <= visc c i / sc) by (intro i; apply Rmult_le_pos; [apply Hv|left; apply Rinv_0_lt_compat; exact Hc]).
  apply Rmult_le_pos.
  - eapply Rle_trans; [left; apply (A j)|apply Rmax_l].
  - pose proof (B j). pose proof (B (S j)). lra.
Qed.

Lemma tke_system : forall c sipg sc dt x, column_ok c -> dt > 0 ->
  let a i := h c i + dt * h c i * ((diff c i * cpos c i + ceps c i) / ck c i) in
  let r i := h c i * ck c i + dt * h c i * (visc c i * cm2 c i - diff c i * cneg c i) in
  (forall i, 0 < a i /\ 0 < r i)
  /\ (tke_step c sipg sc dt x <-> forall i, (i < nc c)%nat ->
       a i * x i = r i + dt * - (below (conductance c sipg sc) x i + above (nc c) (conductance c sipg sc) x i)).
Proof.
  intros c sipg sc dt x (Hh & Hv & Hd & Hk & He & Hm & Hp & Hn) Hdt a r. split.
  - intro i. pose proof (Hh i). pose proof (Hv i). pose proof (Hd i). pose proof (Hk i). pose proof (He i).
    pose proof (Hm i). pose proof (Hp i). pose proof (Hn i). unfold a, r.
    assert (Q : 0 < (diff c i * cpos c i + ceps c i) / ck c i)
      by (apply Rmult_lt_0_compat; [nra|apply Rinv_0_lt_compat; assumption]).
    assert (S1 : 0 <= visc c i * cm2 c i) by (apply Rmult_le_pos; assumption).
    assert (S2 : 0 <= - (diff c i * cneg c i)) by nra.
    assert (0 < dt * h c i) by nra. assert (0 < h c i * ck c i) by nra. split; nra.
  - unfold tke_step. split; intros H i Hi; specialize (H i Hi); unfold a, r, tke_source, vdiffusion in *;
    pose proof (Hk i) as K; apply Rgt_not_eq in K.
    + replace ((- diff c i * cpos c i - ceps c i) / ck c i) with (- ((diff c i * cpos c i + ceps c i) / ck c i)) in H
        by (field; exact K). lra.
    + replace ((- diff c i * cpos c i - ceps c i) / ck c i) with (- ((diff c i * cpos c i + ceps c i) / ck c i))
        by (field; exact K). lra.
Qed.
Theorem C40_tke_positive : forall c sipg schmidt dt x,
  column_ok c -> 0 < sipg -> 0 < schmidt -> dt > 0 -> tke_step c sipg schmidt dt x ->
  forall i, (i < nc c)%nat -> 0 < x i.
Proof.
  intros c sipg sc dt x Hok Hs Hc Hdt Hstep.
  destruct (tke_system c sipg sc dt x Hok Hdt) as (Hpos & Heq). pose proof (proj1 Heq Hstep) as Hs'.
  eapply positive_system; [exact Hdt|apply (conductance_nonneg c sipg sc Hok Hs Hc)| |exact Hs'].
  intros i _. apply Hpos.
Qed.
Theorem C40_tke_step_unique : forall c sipg schmidt dt x y,
  column_ok c -> 0 < sipg -> 0 < schmidt -> dt > 0 ->
  tke_step c sipg schmidt dt x -> tke_step c sipg schmidt dt y ->
  forall i, (i < nc c)%nat -> x i = y i.
Proof.
  intros c sipg sc dt x y Hok Hs Hc Hdt Hx Hy.
  destruct (tke_system c sipg sc dt x Hok Hdt) as (Hpos & Heq). pose proof (proj1 Heq Hx) as Hx'.
  destruct (tke_system c sipg sc dt y Hok Hdt) as (_ & Heq'). pose proof (proj1 Heq' Hy) as Hy'.
  eapply unique_system; [exact Hdt|apply (conductance_nonneg c sipg sc Hok Hs Hc)| |exact Hx'|exact Hy'].
  intros i _. apply Hpos.
Qed.

Lemma psi_system : forall c q sipg dt old x, column_ok c -> dt > 0 -> (forall i, 0 < old i) ->
  0 <= c1 q -> 0 <= c2 q * f_wall q -> 0 <= c3_plus q -> 0 < schmidt_psi q -> pn q < 0 ->
  exists a r, (forall i, 0 < a i /\ 0 < r i)
  /\ (psi_step c q sipg dt old x -> forall i, (i < nc c)%nat ->
       a i * x i = r i + dt * - (below (conductance c sipg (schmidt_psi q)) x i
                                 + above (nc c) (conductance c sipg (schmidt_psi q)) x i)).
Proof.
  intros c q sipg dt old x (Hh & Hv & Hd & Hk & He & Hm & Hp & Hn) Hdt Hold H1 H2 H3 Hs Hpn.
  set (sink := fun i => (if Rgt_dec (c3_minus q) 0 then c3_minus q * - diff c i * cpos c i else 0)
                        - c2 q * f_wall q * ceps c i).
  set (src := fun i => c1 q * (visc c i * cm2 c i)
    + (if Rgt_dec (c3_minus q) 0 then c3_plus q * - diff c i * cneg c i
       else c3_plus q * - diff c i * cneg c i + c3_minus q * - diff c i * cpos c i)).
  set (wall := fun i => (if Nat.eqb i 0 then wall_flux c q (roughness q) i * -1 else 0)
                        + (if Nat.eqb (S i) (nc c) then - wall_flux c q 0.05 i * 1 else 0)).
  exists (fun i => h c i + dt * h c i * (- sink i / ck c i)),
         (fun i => h c i * old i + dt * (h c i * (old i / ck c i * src i) + wall i)).
  assert (Hsink : forall i, sink i <= 0).
  { intro i. unfold sink. pose proof (Hd i). pose proof (Hp i). pose proof (He i).
    assert (0 <= c2 q * f_wall q * ceps c i) by (apply Rmult_le_pos; lra).
    destruct (Rgt_dec (c3_minus q) 0); [|lra].
    assert (0 <= c3_minus q * (diff c i * cpos c i)) by (apply Rmult_le_pos; [lra|apply Rmult_le_pos; assumption]).
    lra. }
  assert (Hsrc : forall i, 0 <= src i).
  { intro i. unfold src. pose proof (Hv i). pose proof (Hm i). pose proof (Hd i). pose proof (Hp i). pose proof (Hn i).
    assert (0 <= c1 q * (visc c i * cm2 c i)) by (apply Rmult_le_pos; [lra|apply Rmult_le_pos; assumption]).
    assert (0 <= c3_plus q * (diff c i * - cneg c i)) by (apply Rmult_le_pos; [lra|apply Rmult_le_pos; lra]).
    destruct (Rgt_dec (c3_minus q) 0); [lra|].
    assert (0 <= - c3_minus q * (diff c i * cpos c i)) by (apply Rmult_le_pos; [lra|apply Rmult_le_pos; assumption]).
    lra. }
  assert (Hwall1 : forall z i, wall_flux c q z i <= 0).
  { intros z i. unfold wall_flux.
    assert (0 <= visc c i / schmidt_psi q * Rpower (pcmu0 q) (pp q) * Rpower (ck c i) (pm q)
                 * Rpower (kappa q) (pn q) * Rpower (0.5 * h c i + z) (pn q - 1)).
    { repeat apply Rmult_le_pos; try (left; apply Rpower_pos); [apply Hv|left; apply Rinv_0_lt_compat; exact Hs]. }
    set (u := visc c i / schmidt_psi q) in *. set (p1 := Rpower (pcmu0 q) (pp q)) in *.
    set (p2 := Rpower (ck c i) (pm q)) in *. set (p3 := Rpower (kappa q) (pn q)) in *.
    set (p4 := Rpower (0.5 * h c i + z) (pn q - 1)) in *.
    replace (pn q * u * p1 * p2 * p3 * p4) with (pn q * (u * p1 * p2 * p3 * p4)) by ring.
    generalize dependent (u * p1 * p2 * p3 * p4). intros w Hw. nra. }
  assert (Hwall : forall i, 0 <= wall i).
  { intro i. unfold wall. pose proof (Hwall1 (roughness q) i). pose proof (Hwall1 0.05 i).
    destruct (Nat.eqb i 0); destruct (Nat.eqb (S i) (nc c)); lra. }
  split.
  - intro i. pose proof (Hh i). pose proof (Hk i) as K. pose proof (Hold i).
    pose proof (Hsink i). pose proof (Hsrc i). pose proof (Hwall i).
    assert (Ki : 0 < / ck c i) by (apply Rinv_0_lt_compat; exact K). split.
    + assert (0 <= - sink i / ck c i) by (apply Rmult_le_pos; lra).
      assert (0 <= dt * h c i) by nra. assert (0 <= dt * h c i * (- sink i / ck c i)) by (apply Rmult_le_pos; assumption). lra.
    + assert (0 <= old i / ck c i) by (apply Rmult_le_pos; lra).
      assert (0 <= h c i * (old i / ck c i * src i)) by (apply Rmult_le_pos; [lra|apply Rmult_le_pos; assumption]).
      assert (0 < h c i * old i) by (apply Rmult_lt_0_compat; assumption). nra.
  - intros H i Hi. specialize (H i Hi). unfold psi_source, vdiffusion in H. cbv zeta in H.
    fold (src i) in H. fold (sink i) in H.
    pose proof (Hk i) as K. apply Rgt_not_eq in K. unfold wall.
    replace (- sink i / ck c i) with (- (sink i / ck c i)) by (field; exact K).
    replace (x i / ck c i * sink i) with (x i * (sink i / ck c i)) in H by (field; exact K).
    lra.
Qed.
Theorem C40_psi_positive : forall c q sipg dt old x,
  column_ok c -> dt > 0 -> (forall i, 0 < old i) -> 0 < sipg ->
  0 <= c1 q -> 0 <= c2 q * f_wall q -> 0 <= c3_plus q -> 0 < schmidt_psi q -> pn q < 0 ->
  psi_step c q sipg dt old x -> forall i, (i < nc c)%nat -> 0 < x i.
Proof.
  intros c q sipg dt old x Hok Hdt Hold Hs H1 H2 H3 H4 H5 Hstep.
  destruct (psi_system c q sipg dt old x Hok Hdt Hold H1 H2 H3 H4 H5) as (a & r & Hpos & Heq).
  specialize (Heq Hstep).
  eapply positive_system; [exact Hdt|apply (conductance_nonneg c sipg _ Hok Hs H4)| |exact Heq].
  intros i _. apply Hpos.
Qed.

(** with n > 0 the wall fluxes are explicit sinks and the step can give negative psi *)
Theorem C40_psi_positive_n_refuted : exists c q sipg dt old x,
  column_ok c /\ dt > 0 /\ (forall i, 0 < old i) /\ 0 < sipg /\ 0 <= c1 q /\ 0 <= c2 q * f_wall q
  /\ 0 <= c3_plus q /\ 0 < schmidt_psi q /\ pn q > 0
  /\ psi_step c q sipg dt old x /\ (0 < nc c)%nat /\ x 0%nat < 0.
Proof.
  (* one cell of height 2, unit coefficients, n = 1: both wall fluxes are 1 *)
  exists (mkCol 1 (fun _ => 2) (fun _ => 1) (fun _ => 0) (fun _ => 1) (fun _ => 1) (fun _ => 0) (fun _ => 0) (fun _ => 0)),
    (mkPsi 0 0 0 0 0 1 0 0 1 1 1 0), 1, 2, (fun _ => 1), (fun _ => -1).
  assert (R1 : forall y, Rpower 1 y = 1) by (intro y; unfold Rpower; rewrite ln_1, Rmult_0_r; apply exp_0).
  split; [unfold column_ok; cbn; repeat split; intros; lra|].
  cbn [c1 c2 f_wall c3_plus schmidt_psi pn nc].
  repeat (split; [try lra; try (intros; lra)|]); [|lia|lra].
  intros i Hi. cbn [nc] in Hi. assert (i = 0)%nat by lia. subst i.
  unfold vdiffusion, below, above, psi_source, wall_flux; cbn [nc h visc diff ck ceps cm2 cpos cneg c1 c2 c3_minus c3_plus f_wall schmidt_psi pp pm pn pcmu0 kappa roughness Nat.ltb Nat.leb Nat.eqb].
  rewrite !R1. destruct (Rgt_dec 0 0); [lra|].
  replace (1 - 1) with 0 by ring. rewrite !Rpower_O by lra. lra.
Qed.

(** * Viscosity of the shipped closures is positive before the background is imposed *)
Lemma post_len_pos : forall o k n2 eps, 0 < k -> 0 < eps -> 0 < o_cmu0 o -> 0 < o_clim o -> 0 <= n2 ->
  0 < post_len o k n2 eps.
Proof.
  intros o k n2 eps Hk He Hc Hcl Hn. unfold post_len.
  assert (HL : 0 < len_of o k eps).
  { unfold len_of. apply Rmult_lt_0_compat; [|apply Rinv_0_lt_compat; exact He].
    apply Rmult_lt_0_compat; [apply pow_lt; exact Hc|apply Rpower_pos]. }
  assert (HM : 0 < len_max o k n2).
  { apply Rmult_lt_0_compat; [exact Hcl|]. apply sqrt_lt_R0. apply Rmult_lt_0_compat; [lra|].
    apply Rinv_0_lt_compat. unfold n2_pos_eps. lra. }
  destruct (set_min_ge (o_len_min o) (len_of o k eps)).
  destruct (limit_len_min o), (limit_len o); try apply Rmin_pos; lra.
Qed.

(** * Pacanowski-Philander *)
Theorem C40_pacanowski : forall o n2_pos m2,
  0 < max_viscosity o -> 0 < pp_alpha o -> 0 < pp_exponent o -> 0 <= n2_pos -> 0 < m2 ->
  let r := pp_postprocess o n2_pos m2 in
  0 < fst r <= max_viscosity o /\ 0 < snd r <= fst r.
Proof.
  intros o n2 m2 Hv Ha He Hn Hm r. unfold r, pp_postprocess; cbn [fst snd].
  assert (Q : 0 <= n2 / m2) by (apply Rmult_le_pos; [exact Hn|left; apply Rinv_0_lt_compat; exact Hm]).
  set (d := 1 + pp_alpha o * (n2 / m2)). assert (Hd : 1 <= d) by (unfold d; nra).
  assert (HP : 1 <= Rpower d (pp_exponent o)).
  { destruct (Req_dec d 1) as [->|Hne].
    - unfold Rpower. rewrite ln_1, Rmult_0_r, exp_0. lra.
    - rewrite <- (Rpower_O d) by lra. left. apply Rpower_lt; lra. }
  set (P := Rpower d (pp_exponent o)) in *.
  assert (V : 0 < max_viscosity o / P) by (apply Rmult_lt_0_compat; [exact Hv|apply Rinv_0_lt_compat; lra]).
  assert (V2 : max_viscosity o / P <= max_viscosity o).
  { apply (Rmult_le_reg_r P); [lra|]. unfold Rdiv. rewrite Rmult_assoc, Rinv_l by lra. nra. }
  set (v := max_viscosity o / P) in *.
  split; [split; assumption|]. split.
  - apply Rmult_lt_0_compat; [exact V|apply Rinv_0_lt_compat; lra].
  - apply (Rmult_le_reg_r d); [lra|]. unfold Rdiv. rewrite Rmult_assoc, Rinv_l by lra. nra.
Qed.
(** more stratification, less mixing; no stratification, maximal mixing *)
Theorem C40_pacanowski_monotone : forall o n2 n2' m2,
  0 < max_viscosity o -> 0 < pp_alpha o -> 0 < pp_exponent o -> 0 <= n2 -> n2 < n2' -> 0 < m2 ->
  fst (pp_postprocess o n2' m2) < fst (pp_postprocess o n2 m2)
  /\ snd (pp_postprocess o n2' m2) < snd (pp_postprocess o n2 m2)
  /\ pp_postprocess o 0 m2 = (max_viscosity o, max_viscosity o).
Proof.
  intros o n2 n2' m2 Hv Ha He Hn Hlt Hm. unfold pp_postprocess; cbn [fst snd].
  assert (Im : 0 < / m2) by (apply Rinv_0_lt_compat; exact Hm).
  set (d := 1 + pp_alpha o * (n2 / m2)). set (d' := 1 + pp_alpha o * (n2' / m2)).
  assert (Hd : 1 <= d) by (unfold d, Rdiv; assert (0 <= n2 * / m2) by (apply Rmult_le_pos; lra); nra).
  assert (Hdd : d < d').
  { unfold d, d', Rdiv. assert (n2 * / m2 < n2' * / m2) by (apply Rmult_lt_compat_r; lra). nra. }
  assert (HP : Rpower d (pp_exponent o) < Rpower d' (pp_exponent o)).
  { unfold Rpower. apply exp_increasing. pose proof (ln_increasing d d' ltac:(lra) Hdd). nra. }
  pose proof (Rpower_pos d (pp_exponent o)) as P0. set (P := Rpower d _) in *. set (P' := Rpower d' _) in *.
  assert (V : max_viscosity o / P' < max_viscosity o / P).
  { unfold Rdiv. apply Rmult_lt_compat_l; [exact Hv|]. apply Rinv_lt_contravar; [nra|exact HP]. }
  split; [exact V|]. split.
  - assert (0 < max_viscosity o / P') by (apply Rmult_lt_0_compat; [exact Hv|apply Rinv_0_lt_compat; lra]).
    assert (I : / d' < / d) by (apply Rinv_lt_contravar; [nra|exact Hdd]).
    assert (0 < / d') by (apply Rinv_0_lt_compat; lra). unfold Rdiv at 1 3. nra.
  - replace (1 + pp_alpha o * (0 / m2)) with 1 by (unfold Rdiv; ring).
    unfold Rpower. rewrite ln_1, Rmult_0_r, exp_0. f_equal; field.
Qed.

(** * Examples *)
Definition ex_col : column :=
  mkCol 2 (fun _ => 1) (fun _ => 1) (fun _ => 0) (fun i => match i with O => 1 | _ => 2 end)
        (fun i => match i with O => 1 | _ => 2 end) (fun _ => 0) (fun _ => 0) (fun _ => 0).
Example C40_column_example : column_ok ex_col
  /\ tke_step ex_col 1 1 1 (fun i => match i with O => 5 / 8 | _ => 7 / 8 end).
Proof.
  split.
  - unfold column_ok, ex_col; cbn. repeat split; intros; try lra; destruct i; lra.
  - intros i Hi. cbn [nc ex_col] in Hi.
    assert (M : Rmax (1 * 1 / 1) (1 * 1 / 1) = 1) by (rewrite Rmax_left; lra).
    destruct i as [|[|i]]; [| |lia];
    unfold tke_source, vdiffusion, below, above, conductance, ex_col;
    cbn [nc h visc diff ck ceps cm2 cpos cneg Nat.ltb Nat.leb]; cbv zeta; rewrite ?M; lra.
Qed.
Example C40_galperin_example :
  limit_psi (defaults false true) = true /\ o_n (defaults false true) < 0
  /\ 0 < o_k_min (defaults false true) /\ 0 < o_cmu0 (defaults false true) /\ 0 < o_clim (defaults false true).
Proof. cbn. repeat split; lra. Qed.
Example C40_pp_example : fst (pp_postprocess (mkPP (1 / 20) 10 2) 0 1) = 1 / 20.
Proof.
  destruct (C40_pacanowski_monotone (mkPP (1 / 20) 10 2) 0 1 1) as (_ & _ & E);
    try (cbn [max_viscosity pp_alpha pp_exponent]; lra).
  rewrite E. reflexivity.
Qed.

Print Assumptions C40_lower_limits.
Print Assumptions C40_length_limits.
Print Assumptions C40_galperin_from_psi.
Print Assumptions C40_galperin_from_eps.
Print Assumptions C40_postprocess_idempotent.
Print Assumptions C40_limits_hold_throughout.
Print Assumptions C40_tke_positive.
Print Assumptions C40_psi_positive.
Print Assumptions C40_pacanowski.
