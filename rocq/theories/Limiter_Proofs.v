From Verif Require Import Num Interp_Model Interp_Proofs2 Limiter_Model Limiter_Spec.
Open Scope Qc_scope.

Lemma qmax_l x y : x <= qmax x y. Proof. unfold qmax. destruct (Qcleb_spec x y); [assumption|apply Qcle_refl]. Qed.
Lemma qmax_r x y : y <= qmax x y. Proof. unfold qmax. destruct (Qcleb_spec x y); [apply Qcle_refl|]. apply Qcnot_le_lt in n. now apply Qclt_le_weak. Qed.
Lemma qmax_or x y : qmax x y = x \/ qmax x y = y. Proof. unfold qmax. destruct (Qcleb x y); auto. Qed.
Lemma qmin_l x y : qmin x y <= x. Proof. unfold qmin. destruct (Qcleb_spec x y); [apply Qcle_refl|]. apply Qcnot_le_lt in n. now apply Qclt_le_weak. Qed.
Lemma qmin_r x y : qmin x y <= y. Proof. unfold qmin. destruct (Qcleb_spec x y); [assumption|apply Qcle_refl]. Qed.
Lemma qmin_or x y : qmin x y = x \/ qmin x y = y. Proof. unfold qmin. destruct (Qcleb x y); auto. Qed.
Lemma qmin_glb x y z : z <= x -> z <= y -> z <= qmin x y. Proof. unfold qmin. destruct (Qcleb x y); auto. Qed.

Lemma vset_spec f v x w : vset f v x w = if Nat.eqb w v then x else f w. Proof. reflexivity. Qed.
Lemma relax_max_spec vs : forall f x v,
  f v <= relax_max f vs x v /\ (In v vs -> x <= relax_max f vs x v) /\
  (relax_max f vs x v = f v \/ (In v vs /\ relax_max f vs x v = x)).
Proof.
  unfold relax_max. induction vs as [|u vs IH]; intros f x v; cbn [fold_left].
  - split; [apply Qcle_refl|]. split; [intros []|]. now left.
  - destruct (IH (vset f u (qmax (f u) x)) x v) as [H1 [H2 H3]].
    assert (K : vset f u (qmax (f u) x) v = f v \/ (v = u /\ vset f u (qmax (f u) x) v = qmax (f u) x)).
    { rewrite vset_spec. destruct (Nat.eqb_spec v u); auto. }
    assert (G : f v <= vset f u (qmax (f u) x) v).
    { destruct K as [->|[-> ->]]; [apply Qcle_refl|apply qmax_l]. }
    split; [eapply Qcle_trans; eauto|]. split.
    + intros [->|H]; [|auto]. eapply Qcle_trans; [|exact H1]. rewrite vset_spec, Nat.eqb_refl. apply qmax_r.
    + destruct H3 as [H3|[H3 H4]]; [|right; split; [now right|exact H4]].
      rewrite H3. destruct K as [->|[-> ->]]; [now left|]. destruct (qmax_or (f u) x) as [->| ->]; [now left|right]. split; [now left|reflexivity].
Qed.
Lemma relax_min_spec vs : forall f x v,
  relax_min f vs x v <= f v /\ (In v vs -> relax_min f vs x v <= x) /\
  (relax_min f vs x v = f v \/ (In v vs /\ relax_min f vs x v = x)).
Proof.
  unfold relax_min. induction vs as [|u vs IH]; intros f x v; cbn [fold_left].
  - split; [apply Qcle_refl|]. split; [intros []|]. now left.
  - destruct (IH (vset f u (qmin (f u) x)) x v) as [H1 [H2 H3]].
    assert (K : vset f u (qmin (f u) x) v = f v \/ (v = u /\ vset f u (qmin (f u) x) v = qmin (f u) x)).
    { rewrite vset_spec. destruct (Nat.eqb_spec v u); auto. }
    assert (G : vset f u (qmin (f u) x) v <= f v).
    { destruct K as [->|[-> ->]]; [apply Qcle_refl|apply qmin_l]. }
    split; [eapply Qcle_trans; eauto|]. split.
    + intros [->|H]; [|auto]. eapply Qcle_trans; [exact H1|]. rewrite vset_spec, Nat.eqb_refl. apply qmin_r.
    + destruct H3 as [H3|[H3 H4]]; [|right; split; [now right|exact H4]].
      rewrite H3. destruct K as [->|[-> ->]]; [now left|]. destruct (qmin_or (f u) x) as [->| ->]; [now left|right]. split; [now left|reflexivity].
Qed.

(** a list of contributions *)
Definition contribs := list (list nat * Qc).
Definition relax_all (b : vfield * vfield) (L : contribs) : vfield * vfield := fold_left (fun b p => relax b (fst p) (snd p)) L b.
Lemma relax_all_spec L : forall b v,
  (fst b v <= fst (relax_all b L) v /\ snd (relax_all b L) v <= snd b v) /\
  (forall vs x, In (vs, x) L -> In v vs -> x <= fst (relax_all b L) v /\ snd (relax_all b L) v <= x) /\
  (fst (relax_all b L) v = fst b v \/ exists vs x, In (vs, x) L /\ In v vs /\ fst (relax_all b L) v = x) /\
  (snd (relax_all b L) v = snd b v \/ exists vs x, In (vs, x) L /\ In v vs /\ snd (relax_all b L) v = x).
Proof.
  unfold relax_all. induction L as [|[us y] L IH]; intros b v; cbn [fold_left fst snd].
  - repeat split; try apply Qcle_refl; try (intros; contradiction); now left.
  - destruct (IH (relax b us y) v) as [[A1 A2] [B [C D]]]. unfold relax in A1, A2. cbn [fst snd] in A1, A2.
    destruct (relax_max_spec us (fst b) y v) as [M1 [M2 M3]]. destruct (relax_min_spec us (snd b) y v) as [N1 [N2 N3]].
    split; [split; eapply Qcle_trans; eauto|]. split; [|split].
    + intros vs x [[= -> ->]|H] Hv; [split; eapply Qcle_trans; eauto|eauto].
    + destruct C as [C|[vs [x [C1 [C2 C3]]]]]; [|right; exists vs, x; repeat split; auto; now right].
      change (fst (relax b us y) v) with (relax_max (fst b) us y v) in C. destruct M3 as [M3|[M3 M4]]; [left; congruence|right]. exists us, y. repeat split; [now left|exact M3|congruence].
    + clear C. rename D into C. destruct C as [C|[vs [x [C1 [C2 C3]]]]]; [|right; exists vs, x; repeat split; auto; now right].
      change (snd (relax b us y) v) with (relax_min (snd b) us y v) in C. destruct N3 as [N3|[N3 N4]]; [left; congruence|right]. exists us, y. repeat split; [now left|exact N3|congruence].
Qed.

Definition facet_contrib (m : lmesh) (q : dgfield) (c : nat) (idx : list nat) : list nat * Qc :=
  (map (fun i => nth i (cell_nodes m c) 0%nat) idx, face_mean q c idx).
Definition all_contribs (m : lmesh) (q : dgfield) : contribs :=
  (map (fun c => (cell_nodes m c, centroid m q c)) (seq 0 (length (m_cells m))) ++
   map (fun cf => facet_contrib m q (fst cf) (nth (snd cf) (m_local_facets m) [])) (m_exterior m) ++
   (if m_is_2d m then [] else
     map (fun c => facet_contrib m q c (m_bottom_nodes m)) (m_bottom m) ++
     map (fun c => facet_contrib m q c (m_top_nodes m)) (m_top m)))%list.
Definition bounds0 : vfield * vfield := ((fun _ => - big), (fun _ => big)).

Lemma fold_left_map {A B C} (f : A -> B -> A) (g : C -> B) l a : fold_left f (map g l) a = fold_left (fun a c => f a (g c)) l a.
Proof. revert a. induction l; intros; cbn; auto. Qed.
Lemma compute_bounds_all m q : compute_bounds m q = relax_all bounds0 (all_contribs m q).
Proof.
  unfold compute_bounds, relax_all, all_contribs, base_bounds, facet_kernel, bounds0.
  rewrite !fold_left_app, !fold_left_map. destruct (m_is_2d m).
  - reflexivity.
  - rewrite fold_left_app, !fold_left_map. reflexivity.
Qed.

Lemma contribs_around m q vs x v : In (vs, x) (all_contribs m q) -> In v vs -> around m q v x.
Proof.
  unfold all_contribs. rewrite !in_app_iff. intros H Hv. destruct H as [H|[H|H]].
  - apply in_map_iff in H as [c [[= <- <-] Hc]]. apply in_seq in Hc. apply A_cell; [lia|exact Hv].
  - apply in_map_iff in H as [[c f] [E Hc]]. unfold facet_contrib in E. cbn [fst snd] in E. injection E as <- <-.
    apply in_map_iff in Hv as [i [Hi Hin]]. assert (N : boundary_facet m c (nth f (m_local_facets m) [])) by now constructor.
    replace (face_mean q c (nth f (m_local_facets m) [])) with (nodes_mean (facet_values q c (nth f (m_local_facets m) [])))
      by (unfold nodes_mean, facet_values, face_mean; now rewrite map_length).
    eapply A_facet; eauto.
  - destruct (m_is_2d m) eqn:E2; [destruct H|]. apply in_app_iff in H as [H|H];
      apply in_map_iff in H as [c [E Hc]]; unfold facet_contrib in E; injection E as <- <-; apply in_map_iff in Hv as [i [Hi Hin]].
    + replace (face_mean q c (m_bottom_nodes m)) with (nodes_mean (facet_values q c (m_bottom_nodes m)))
        by (unfold nodes_mean, facet_values, face_mean; now rewrite map_length).
      eapply A_facet; eauto. now apply BF_bottom.
    + replace (face_mean q c (m_top_nodes m)) with (nodes_mean (facet_values q c (m_top_nodes m)))
        by (unfold nodes_mean, facet_values, face_mean; now rewrite map_length).
      eapply A_facet; eauto. now apply BF_top.
Qed.
Lemma around_contribs m q v x : around m q v x -> exists vs, In (vs, x) (all_contribs m q) /\ In v vs.
Proof.
  unfold all_contribs. intros H. destruct H as [c Hc Hv|c idx i B Hi Hv].
  - exists (cell_nodes m c). split; [|exact Hv]. apply in_app_iff. left. apply in_map_iff. exists c. split; [reflexivity|]. apply in_seq. lia.
  - exists (map (fun i => nth i (cell_nodes m c) 0%nat) idx). split.
    + replace (nodes_mean (facet_values q c idx)) with (face_mean q c idx) by (unfold nodes_mean, facet_values, face_mean; now rewrite map_length).
      change (In (facet_contrib m q c idx) (map (fun c0 => (cell_nodes m c0, centroid m q c0)) (seq 0 (length (m_cells m))) ++
   map (fun cf => facet_contrib m q (fst cf) (nth (snd cf) (m_local_facets m) [])) (m_exterior m) ++
   (if m_is_2d m then [] else
     map (fun c => facet_contrib m q c (m_bottom_nodes m)) (m_bottom m) ++
     map (fun c => facet_contrib m q c (m_top_nodes m)) (m_top m)))%list).
      rewrite !in_app_iff. right. destruct B as [c f Hin|c E Hin|c E Hin].
      * left. apply in_map_iff. now exists (c, f).
      * right. rewrite E. apply in_app_iff. left. apply in_map_iff. now exists c.
      * right. rewrite E. apply in_app_iff. right. apply in_map_iff. now exists c.
    + apply in_map_iff. now exists i.
Qed.

Lemma bounds_contain m q v x : around m q v x -> snd (compute_bounds m q) v <= x /\ x <= fst (compute_bounds m q) v.
Proof.
  intros H. apply around_contribs in H as [vs [H1 H2]]. rewrite compute_bounds_all.
  destruct (relax_all_spec (all_contribs m q) bounds0 v) as [_ [B _]]. destruct (B vs x H1 H2). auto.
Qed.
Lemma bounds_attained m q v x : within_big m q -> around m q v x ->
  around m q v (fst (compute_bounds m q) v) /\ around m q v (snd (compute_bounds m q) v).
Proof.
  intros W H. pose proof (bounds_contain m q v x H) as [K1 K2]. destruct (W v x H) as [W1 W2].
  rewrite compute_bounds_all in *. destruct (relax_all_spec (all_contribs m q) bounds0 v) as [[A1 A2] [_ [C D]]]. cbn [bounds0 fst snd] in *.
  assert (E : forall a, (exists vs y, In (vs, y) (all_contribs m q) /\ In v vs /\ a = y) -> around m q v a).
  { intros a [vs [y [H1 [H2 ->]]]]. eapply contribs_around; eauto. }
  split.
  - destruct C as [C|C]; [|now apply E]. rewrite C in *. replace (- big) with x; [exact H|]. apply Qcle_antisym; assumption.
  - destruct D as [C'|C']; [|now apply E]. rewrite C' in *. replace big with x; [exact H|]. apply Qcle_antisym; assumption.
Qed.

(** ** The correction factor *)
Lemma qdiv_mul a b : b <> 0 -> a / b * b = a. Proof. intros. field. assumption. Qed.
Lemma alpha_step (a lim d : Qc) : 0 <= a -> a <= lim / d -> 0 < d -> a * d <= lim.
Proof.
  intros H0 H1 H2. rewrite <- (qdiv_mul lim d) by (intros ->; now apply Qclt_not_eq in H2).
  apply Qcmult_le_compat_r; [assumption|now apply Qclt_le_weak].
Qed.
Lemma qdiv_nonneg a b : 0 <= a -> 0 < b -> 0 <= a / b.
Proof.
  intros H1 H2. destruct (Qclt_le_dec (a / b) 0) as [N|]; [|assumption]. exfalso.
  assert (K : a / b * b < 0 * b) by (apply Qcmult_lt_compat_r; assumption).
  rewrite qdiv_mul in K by (intros ->; now apply Qclt_not_eq in H2). apply Qclt_not_le in K. apply K. replace (0 * b) with 0 by ring. exact H1.
Qed.
Lemma node_alpha_spec a qavg x mx mn : 0 <= a -> mn <= qavg -> qavg <= mx ->
  0 <= node_alpha a qavg x mx mn /\ node_alpha a qavg x mx mn <= a /\
  forall t, 0 <= t -> t <= node_alpha a qavg x mx mn -> t <= 1 -> mn <= qavg + t * (x - qavg) /\ qavg + t * (x - qavg) <= mx.
Proof.
  intros Ha H1 H2. unfold node_alpha. destruct (Qcltb_spec qavg x) as [L|L].
  - assert (P : 0 < x - qavg) by qc. split; [|split].
    + apply qmin_glb; [assumption|]. apply qmin_glb; [discriminate|]. apply qdiv_nonneg; [qc|assumption].
    + apply qmin_l.
    + intros t T0 T1 T2. assert (T3 : t <= (mx - qavg) / (x - qavg)).
      { eapply Qcle_trans; [exact T1|]. eapply Qcle_trans; [apply qmin_r|apply qmin_r]. }
      pose proof (alpha_step t _ _ T0 T3 P) as K. split; [|qc].
      assert (0 <= t * (x - qavg)). { replace 0 with (0 * (x - qavg)) by ring. apply Qcmult_le_compat_r; [assumption|now apply Qclt_le_weak]. } qc.
  - destruct (Qcltb_spec x qavg) as [L'|L'].
    + assert (P : 0 < qavg - x) by qc. split; [|split].
      * apply qmin_glb; [assumption|]. apply qmin_glb; [discriminate|]. apply qdiv_nonneg; [qc|assumption].
      * apply qmin_l.
      * intros t T0 T1 T2. assert (T3 : t <= (qavg - mn) / (qavg - x)).
        { eapply Qcle_trans; [exact T1|]. eapply Qcle_trans; [apply qmin_r|apply qmin_r]. }
        pose proof (alpha_step t _ _ T0 T3 P) as K.
        assert (0 <= t * (qavg - x)). { replace 0 with (0 * (qavg - x)) by ring. apply Qcmult_le_compat_r; [assumption|now apply Qclt_le_weak]. }
        replace (qavg + t * (x - qavg)) with (qavg - t * (qavg - x)) by ring. split; qc.
    + assert (E : x = qavg) by (apply Qcle_antisym; apply Qcnot_lt_le; assumption). subst x.
      split; [assumption|]. split; [apply Qcle_refl|]. intros t _ _ _. replace (qavg + t * (qavg - qavg)) with qavg by ring. now split.
Qed.

Lemma alpha_fold (b : vfield * vfield) qavg : forall l a, 0 <= a -> a <= 1 ->
  (forall v x, In (v, x) l -> snd b v <= qavg /\ qavg <= fst b v) ->
  let r := fold_left (fun a p => node_alpha a qavg (snd p) (fst b (fst p)) (snd b (fst p))) l a in
  0 <= r /\ r <= a /\
  forall v x, In (v, x) l -> forall t, 0 <= t -> t <= r -> snd b v <= qavg + t * (x - qavg) /\ qavg + t * (x - qavg) <= fst b v.
Proof.
  induction l as [|[v x] l IH]; intros a Ha Ha1 H; cbn [fold_left fst snd].
  - split; [assumption|]. split; [apply Qcle_refl|]. intros v x [].
  - destruct (H v x (or_introl eq_refl)) as [B1 B2].
    destruct (node_alpha_spec a qavg x (fst b v) (snd b v) Ha B1 B2) as [N1 [N2 N3]].
    destruct (IH (node_alpha a qavg x (fst b v) (snd b v)) N1) as [R1 [R2 R3]].
    + eapply Qcle_trans; eauto.
    + intros v' x' H'. apply (H v' x'). now right.
    + split; [exact R1|]. split; [eapply Qcle_trans; eauto|].
      intros v' x' [[= -> ->]|H'] t T0 T1; [|now apply R3].
      apply N3; [assumption|eapply Qcle_trans; eauto|]. eapply Qcle_trans; [exact T1|]. eapply Qcle_trans; [exact R2|]. eapply Qcle_trans; eauto.
Qed.

(** a cell whose values are within the bounds keeps the factor 1 *)
Lemma node_alpha_one qavg x mx mn : mn <= x -> x <= mx -> node_alpha 1 qavg x mx mn = 1.
Proof.
  intros H1 H2. unfold node_alpha.
  assert (G : forall l d, 0 < d -> d <= l -> qmin 1 (qmin 1 (l / d)) = 1).
  { intros l d D L. assert (K : 1 <= l / d).
    { destruct (Qclt_le_dec (l / d) 1) as [N|]; [|assumption]. exfalso. apply (Qcmult_lt_compat_r _ _ d D) in N.
      rewrite qdiv_mul in N by (intros ->; now apply Qclt_not_eq in D). replace (1 * d) with d in N by ring. apply Qclt_not_le in N. contradiction. }
    replace (qmin 1 (l / d)) with 1 by (unfold qmin; destruct (Qcleb_spec 1 (l / d)); [reflexivity|contradiction]). reflexivity. }
  destruct (Qcltb_spec qavg x) as [L|L]; [apply G; qc|]. destruct (Qcltb_spec x qavg) as [L'|L']; [apply G; qc|reflexivity].
Qed.
Lemma alpha_fold_one (b : vfield * vfield) qavg l :
  (forall v x, In (v, x) l -> snd b v <= x /\ x <= fst b v) ->
  fold_left (fun a p => node_alpha a qavg (snd p) (fst b (fst p)) (snd b (fst p))) l 1 = 1.
Proof.
  induction l as [|[v x] l IH]; intros H; [reflexivity|]. cbn [fold_left fst snd].
  rewrite node_alpha_one; [|apply (H v x); now left|apply (H v x); now left]. apply IH. intros v' x' H'. apply H. now right.
Qed.

Lemma in_combine_nth {A B} (l : list A) (k : list B) i a b : nth_error l i = Some a -> nth_error k i = Some b -> In (a, b) (combine l k).
Proof.
  revert k i. induction l as [|x l IH]; intros [|y k] [|i] H1 H2; cbn in *; try discriminate.
  - left. congruence. - right. eauto.
Qed.
Lemma combine_nth_in {A B} (l : list A) (k : list B) a b : In (a, b) (combine l k) -> exists i, nth_error l i = Some a /\ nth_error k i = Some b.
Proof.
  revert k. induction l as [|x l IH]; intros [|y k] H; cbn in *; try contradiction.
  destruct H as [[= -> ->]|H]; [now exists 0%nat|]. destruct (IH k H) as [i Hi]. now exists (S i).
Qed.

Lemma apply_length m q : length (apply_limiter m q) = length (m_cells m).
Proof. unfold apply_limiter. now rewrite map_length, seq_length. Qed.
Lemma apply_nth m q c : (c < length (m_cells m))%nat -> nth c (apply_limiter m q) [] = limit_cell m q (compute_bounds m q) c.
Proof.
  intros H. unfold apply_limiter. rewrite (nth_indep _ [] (limit_cell m q (compute_bounds m q) 0)) by (now rewrite map_length, seq_length).
  rewrite map_nth, seq_nth by assumption. reflexivity.
Qed.
Lemma nth_error_nth_lt {A} (l : list A) n d x : nth_error l n = Some x -> nth n l d = x /\ (n < length l)%nat.
Proof. intros H. split; [now apply nth_error_nth|]. apply nth_error_Some. congruence. Qed.

Lemma cell_bounds m q c : fits m q -> (c < length (m_cells m))%nat ->
  forall v x, In (v, x) (combine (cell_nodes m c) (cell_values q c)) ->
  snd (compute_bounds m q) v <= centroid m q c /\ centroid m q c <= fst (compute_bounds m q) v.
Proof.
  intros F Hc v x Hin. apply in_combine_l in Hin. apply bounds_contain. change (centroid m q c) with (cell_mean m q c). now apply A_cell.
Qed.

Lemma limited_bounded m q c i v x : fits m q -> node_at m c i v -> value_at (apply_limiter m q) c i x ->
  snd (compute_bounds m q) v <= x /\ x <= fst (compute_bounds m q) v.
Proof.
  intros F [N1 N2] [l [V1 V2]]. apply (nth_error_nth_lt _ _ []) in N1 as [_ Hc].
  apply (nth_error_nth_lt _ _ []) in V1 as [V1 _]. rewrite apply_nth in V1 by assumption. subst l.
  unfold limit_cell in V2. rewrite nth_error_map in V2. destruct (nth_error (cell_values q c) i) as [y|] eqn:Ey; [|discriminate].
  cbn in V2. injection V2 as <-. pose proof (in_combine_nth _ _ _ _ _ N2 Ey) as Hin. fold (cell_nodes m c) in Hin.
  destruct (alpha_fold (compute_bounds m q) (centroid m q c) (combine (cell_nodes m c) (cell_values q c)) 1) as [R1 [R2 R3]];
    [discriminate|apply Qcle_refl|now apply cell_bounds|].
  apply (R3 v y Hin); [exact R1|apply Qcle_refl].
Qed.

Lemma dot_affine a b l w : length l = length w -> dot (map (fun x => a + b * (x - a)) l) w = a * qsum w + b * (dot l w - a * qsum w).
Proof.
  revert w. unfold dot. induction l as [|x l IH]; intros [|y w] H; try discriminate; cbn; [ring|].
  injection H as H. unfold dot, qsum in *. rewrite IH by assumption. ring.
Qed.
Lemma limited_mean m q c : fits m q -> (c < length (m_cells m))%nat -> cell_mean m (apply_limiter m q) c = cell_mean m q c.
Proof.
  intros F Hc. unfold cell_mean. rewrite apply_nth by assumption. unfold limit_cell. destruct (fit_cell _ _ F c Hc) as [L1 [L2 [_ S]]].
  rewrite dot_affine by (unfold cell_values; congruence). rewrite S. unfold centroid, cell_values. ring.
Qed.

Lemma map_id_ext {A} (f : A -> A) l : (forall x, In x l -> f x = x) -> map f l = l.
Proof. induction l; cbn; intros H; [reflexivity|]. f_equal; auto. Qed.
Lemma limit_cell_id m q c : fits m q -> (c < length (m_cells m))%nat ->
  (forall v x, In (v, x) (combine (cell_nodes m c) (cell_values q c)) -> snd (compute_bounds m q) v <= x /\ x <= fst (compute_bounds m q) v) ->
  limit_cell m q (compute_bounds m q) c = cell_values q c.
Proof.
  intros F Hc H. unfold limit_cell, cell_alpha. rewrite alpha_fold_one by assumption. apply map_id_ext. intros x _. ring.
Qed.
Lemma list_seq {A} (l : list A) d : map (fun i => nth i l d) (seq 0 (length l)) = l.
Proof.
  apply (nth_ext _ _ d d); [now rewrite map_length, seq_length|]. intros n Hn. rewrite map_length, seq_length in Hn.
  rewrite (nth_indep _ d (nth 0 l d)) by (now rewrite map_length, seq_length). rewrite (map_nth (fun i => nth i l d)), seq_nth by assumption. reflexivity.
Qed.
Lemma within_unchanged m q : fits m q ->
  (forall c i v x, node_at m c i v -> value_at q c i x -> snd (compute_bounds m q) v <= x /\ x <= fst (compute_bounds m q) v) ->
  apply_limiter m q = q.
Proof.
  intros F H. unfold apply_limiter. rewrite <- (fit_q _ _ F). transitivity (map (fun i => nth i q []) (seq 0 (length q))); [|apply list_seq]. apply map_ext_in. intros c Hc. apply in_seq in Hc.
  rewrite (fit_q _ _ F) in Hc. apply limit_cell_id; [assumption|lia|]. intros v x Hin. apply combine_nth_in in Hin as [i [H1 H2]].
  apply (H c i v x).
  - split; [|exact H1]. apply nth_error_nth'. lia.
  - exists (cell_values q c). split; [|exact H2]. apply nth_error_nth'. rewrite (fit_q _ _ F). lia.
Qed.

Lemma limited_fits m q : fits m q -> fits m (apply_limiter m q).
Proof.
  intros F. constructor; try apply F.
  - apply apply_length.
  - intros c Hc. destruct (fit_cell _ _ F c Hc) as [L1 L2]. split; [|exact L2]. rewrite apply_nth by assumption. unfold limit_cell.
    now rewrite map_length.
Qed.

(** ** Averages stay within the range of what is averaged *)
Lemma mean_range lo hi l : l <> [] -> (forall x, In x l -> lo <= x /\ x <= hi) -> lo <= nodes_mean l /\ nodes_mean l <= hi.
Proof.
  intros N H. assert (P : 0 < qn (length l)). { rewrite <- qn_0. apply qn_lt. destruct l; [contradiction|cbn; lia]. }
  assert (S : lo * qn (length l) <= qsum l /\ qsum l <= hi * qn (length l)).
  { clear N P. induction l as [|x l IH].
    - cbn [length]. rewrite qn_0. unfold qsum. cbn. split; qc.
    - cbn [length]. rewrite qn_S. destruct IH as [I1 I2]; [intros y Hy; apply H; now right|]. destruct (H x (or_introl eq_refl)) as [X1 X2].
      change (qsum (x :: l)) with (x + qsum l). replace (lo * (qn (length l) + 1)) with (lo * qn (length l) + lo) by ring.
      replace (hi * (qn (length l) + 1)) with (hi * qn (length l) + hi) by ring.
      set (A := lo * qn (length l)) in *. set (B := hi * qn (length l)) in *. clearbody A B. split; qc. }
  unfold nodes_mean. destruct S as [S1 S2]. assert (E : qsum l / qn (length l) * qn (length l) = qsum l).
  { apply qdiv_mul. intros X. rewrite X in P. now apply Qclt_not_eq in P. }
  rewrite <- E in S1, S2. split.
  - destruct (Qclt_le_dec (qsum l / qn (length l)) lo) as [K|]; [|assumption]. exfalso.
    apply (Qcmult_lt_compat_r _ _ _ P) in K. apply Qclt_not_le in K. contradiction.
  - destruct (Qclt_le_dec hi (qsum l / qn (length l))) as [K|]; [|assumption]. exfalso.
    apply (Qcmult_lt_compat_r _ _ _ P) in K. apply Qclt_not_le in K. contradiction.
Qed.
Lemma around_range m q v x lo hi : fits m q -> (forall c i y, value_at q c i y -> lo <= y /\ y <= hi) -> around m q v x -> lo <= x /\ x <= hi.
Proof.
  intros F H A.
  assert (V : forall c y, (c < length (m_cells m))%nat -> In y (nth c q []) -> lo <= y /\ y <= hi).
  { intros c y Hc Hy. apply In_nth_error in Hy as [i Hi]. apply (H c i y). exists (nth c q []). split; [|exact Hi].
    apply nth_error_nth'. now rewrite (fit_q _ _ F). }
  destruct A as [c Hc Hv|c idx i B Hi Hv].
  - destruct (fit_cell _ _ F c Hc) as [L1 [L2 [W S]]]. unfold cell_mean.
    pose proof (dot_lower lo (nth c q []) (nth c (m_weights m) [])) as D1. pose proof (dot_upper hi (nth c q []) (nth c (m_weights m) [])) as D2.
    rewrite S in D1, D2. replace (lo * 1) with lo in D1 by ring. replace (hi * 1) with hi in D2 by ring. split.
    + apply D1; [congruence|exact W|]. intros y Hy. now apply (V c y).
    + apply D2; [congruence|exact W|]. intros y Hy. now apply (V c y).
  - assert (B' : (c < length (m_cells m))%nat /\ idx <> [] /\ forall i, In i idx -> (i < length (nth c (m_cells m) []))%nat).
    { destruct B as [c f Hin|c E Hin|c E Hin]; [now apply (fit_ext _ _ F)|now apply (fit_bot _ _ F)|now apply (fit_top _ _ F)]. }
    destruct B' as [Hc [Hne Hb]]. apply mean_range.
    + unfold facet_values. destruct idx; [contradiction|discriminate].
    + intros y Hy. unfold facet_values in Hy. apply in_map_iff in Hy as [j [<- Hj]]. apply (V c); [assumption|]. apply nth_In.
      destruct (fit_cell _ _ F c Hc) as [L1 _]. rewrite L1. auto.
Qed.

(** ** Vector fields *)
Lemma nth_set_comp i j y x : nth j (set_comp i y x) 0 = if (Nat.eqb j i && Nat.ltb i (length x))%bool then y else nth j x 0.
Proof.
  revert i j. induction x as [|a x IH]; intros [|i] [|j]; cbn; try reflexivity.
  - destruct (Nat.eqb j i); reflexivity.
  - rewrite IH. reflexivity.
Qed.
Lemma set_comp_length i y x : length (set_comp i y x) = length x.
Proof. revert i. induction x as [|a x IH]; intros [|i]; cbn; auto. Qed.

(** shape of a vector field over the mesh *)
Definition vshape (m : lmesh) (dim : nat) (q : list (list (list Qc))) : Prop :=
  length q = length (m_cells m) /\
  Forall2 (fun l vs => length l = length vs /\ Forall (fun x => length x = dim) l) q (m_cells m).

Lemma component_set m dim i j q s :
  (i < dim)%nat -> vshape m dim q -> Forall2 (fun (l : list Qc) (vs : list nat) => length l = length vs) s (m_cells m) ->
  component j (set_component i q s) = (if Nat.eqb j i then s else component j q) /\ vshape m dim (set_component i q s).
Proof.
  intros Hi [Hl V] S. unfold vshape. assert (G : component j (set_component i q s) = (if Nat.eqb j i then s else component j q) /\
     Forall2 (fun l vs => length l = length vs /\ Forall (fun x => length x = dim) l) (set_component i q s) (m_cells m)).
  { clear Hl. revert s S. generalize (m_cells m) V. clear V. intros cs V.
    induction V as [|l vs q cs [Hl Hd] V IH]; intros s S; inversion S as [|sl vs' s' cs' Hs S' E1 E2]; subst.
    - cbn. destruct (Nat.eqb j i); now split.
    - destruct (IH s' S') as [I1 I2]. unfold set_component, component in *. cbn [combine map fst snd]. rewrite I1. split.
      + rewrite map_map. cbn [fst snd].
        assert (K : map (fun x => nth j (set_comp i (snd x) (fst x)) 0) (combine l sl) = if Nat.eqb j i then sl else map (fun x => nth j x 0) l).
        { assert (Hls : length l = length sl) by congruence. clear -Hls Hd Hi. revert sl Hls. induction Hd as [|x l Hx Hd IH]; intros [|y sl] Hls; try discriminate.
          - destruct (Nat.eqb j i); reflexivity.
          - cbn [combine map fst snd]. injection Hls as Hls. rewrite IH by assumption. rewrite nth_set_comp, Hx.
            replace (Nat.ltb i dim) with true by (symmetry; apply Nat.ltb_lt; assumption). rewrite andb_true_r. destruct (Nat.eqb j i); reflexivity. }
        rewrite K. destruct (Nat.eqb j i); reflexivity.
      + constructor; [|exact I2]. split.
        * rewrite map_length, combine_length. lia.
        * apply Forall_forall. intros x Hx. apply in_map_iff in Hx as [[a b] [<- Hin]]. cbn [fst snd]. rewrite set_comp_length.
          apply in_combine_l in Hin. rewrite Forall_forall in Hd. auto. }
  destruct G as [G1 G2]. split; [exact G1|]. split; [|exact G2]. clear -G2. induction G2; cbn; congruence.
Qed.
Lemma component_length m dim i q : vshape m dim q -> Forall2 (fun (l : list Qc) (vs : list nat) => length l = length vs) (component i q) (m_cells m).
Proof.
  intros [_ V]. unfold component. revert V. generalize (m_cells m). intros cs V. induction V as [|l vs q cs [Hl _] V IH]; cbn; constructor; auto. now rewrite map_length.
Qed.
Lemma apply_shape m s : Forall2 (fun (l : list Qc) (vs : list nat) => length l = length vs) s (m_cells m) ->
  Forall2 (fun (l : list Qc) (vs : list nat) => length l = length vs) (apply_limiter m s) (m_cells m).
Proof.
  intros F. unfold apply_limiter.
  assert (K : forall cs, (forall c, In c cs -> (c < length (m_cells m))%nat) ->
     Forall2 (fun (l : list Qc) (vs : list nat) => length l = length vs) (map (limit_cell m s (compute_bounds m s)) cs) (map (fun c => nth c (m_cells m) []) cs)).
  { induction cs as [|c cs IH]; intros H; cbn; constructor; [|apply IH; intros; apply H; now right].
    unfold limit_cell. rewrite map_length. unfold cell_values. specialize (H c (or_introl eq_refl)).
    clear -F H. revert c H. induction F as [|l vs s cs Hl F IH]; intros [|c] H; cbn in *; try lia. apply IH. lia. }
  specialize (K (seq 0 (length (m_cells m)))). rewrite list_seq in K. apply K. intros c Hc. apply in_seq in Hc. lia.
Qed.
Lemma apply_vector_component m dim q j : vshape m dim q -> (j < dim)%nat -> component j (apply_vector m dim q) = apply_limiter m (component j q).
Proof.
  intros V Hj. unfold apply_vector.
  assert (K : forall n s q, vshape m dim q -> (s + n <= dim)%nat ->
     component j (fold_left (fun q i => set_component i q (apply_limiter m (component i q))) (seq s n) q) =
       (if (Nat.leb s j && Nat.ltb j (s + n))%bool then apply_limiter m (component j q) else component j q)).
  { induction n as [|n IH]; intros s r Vr Hs; cbn [seq fold_left].
    - destruct (Nat.leb_spec s j); destruct (Nat.ltb_spec j (s + 0)); cbn; try reflexivity; lia.
    - destruct (component_set m dim s j r (apply_limiter m (component s r)) ltac:(lia) Vr) as [C1 C2].
      { apply apply_shape. eapply component_length; eauto. }
      rewrite IH; [|exact C2|lia]. rewrite C1. destruct (Nat.eqb_spec j s) as [->|N].
      + destruct (Nat.leb_spec (S s) s); [lia|]. destruct (Nat.leb_spec s s); [|lia]. destruct (Nat.ltb_spec s (s + S n)); [|lia]. reflexivity.
      + destruct (Nat.leb_spec (S s) j); destruct (Nat.leb_spec s j); destruct (Nat.ltb_spec j (S s + n)); destruct (Nat.ltb_spec j (s + S n)); cbn; try reflexivity; lia. }
  rewrite K by (auto; lia). destruct (Nat.leb_spec 0 j); [|lia]. destruct (Nat.ltb_spec j (0 + dim)); [reflexivity|lia].
Qed.
