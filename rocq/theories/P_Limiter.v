(** C36: the vertex based slope limiter. *)
From Verif Require Import Num Interp_Model Limiter_Model Limiter_Spec Limiter_Proofs.
Open Scope Qc_scope.

(** The admissible interval at a vertex contains the means of all adjacent cells
    and of all adjacent boundary facets ... *)
Theorem C36_bounds_contain m q v x : around m q v x -> snd (compute_bounds m q) v <= x /\ x <= fst (compute_bounds m q) v.
Proof. apply bounds_contain. Qed.
(** ... and is no larger than needed: both ends are such means. *)
Theorem C36_bounds_attained m q v x : within_big m q -> around m q v x ->
  around m q v (snd (compute_bounds m q) v) /\ around m q v (fst (compute_bounds m q) v).
Proof. intros W A. destruct (bounds_attained m q v x W A). now split. Qed.

(** After limiting every nodal value lies between two means around its vertex. *)
Theorem C36_limited_between_means m q c i v x :
  fits m q -> within_big m q -> node_at m c i v -> value_at (apply_limiter m q) c i x ->
  exists lo hi, around m q v lo /\ around m q v hi /\ lo <= x /\ x <= hi.
Proof.
  intros F W N V. destruct (limited_bounded m q c i v x F N V) as [H1 H2].
  assert (A : around m q v (cell_mean m q c)).
  { destruct N as [N1 N2]. apply A_cell; [apply nth_error_Some; congruence|]. eapply nth_error_In; eauto. }
  destruct (bounds_attained m q v _ W A). now exists (snd (compute_bounds m q) v), (fst (compute_bounds m q) v).
Qed.

(** Cell means are preserved. *)
Theorem C36_mean_preserved m q c : fits m q -> (c < length (m_cells m))%nat -> cell_mean m (apply_limiter m q) c = cell_mean m q c.
Proof. apply limited_mean. Qed.

(** The limited field has the same shape, and a field that is already admissible
    is not changed. *)
Theorem C36_admissible_unchanged m q : fits m q -> admissible m q -> apply_limiter m q = q.
Proof.
  intros F A. apply within_unchanged; [assumption|]. intros c i v x N V. destruct (A c i v x N V) as [lo [hi [A1 [A2 [L H]]]]].
  apply bounds_contain in A1 as [A1 _]. apply bounds_contain in A2 as [_ A2]. split; eapply Qcle_trans; eauto.
Qed.

(** Limiting creates no new extrema. *)
Theorem C36_no_new_extrema m q lo hi :
  fits m q -> - big <= lo -> hi <= big ->
  (forall c i x, value_at q c i x -> lo <= x /\ x <= hi) ->
  forall c i v x, node_at m c i v -> value_at (apply_limiter m q) c i x -> lo <= x /\ x <= hi.
Proof.
  intros F B1 B2 R c i v x N V.
  assert (W : within_big m q). { intros w y A. destruct (around_range m q w y lo hi F R A). split; eapply Qcle_trans; eauto. }
  destruct (C36_limited_between_means m q c i v x F W N V) as [l [h [A1 [A2 [L H]]]]].
  destruct (around_range _ _ _ _ _ _ F R A1) as [L1 _]. destruct (around_range _ _ _ _ _ _ F R A2) as [_ H1]. split; eapply Qcle_trans; eauto.
Qed.

(** On a mesh without boundary limiting twice is limiting once. *)
Theorem C36_idempotent m q : fits m q -> m_exterior m = [] -> m_is_2d m = true -> apply_limiter m (apply_limiter m q) = apply_limiter m q.
Proof.
  intros F E D. apply within_unchanged; [now apply limited_fits|].
  assert (C : compute_bounds m (apply_limiter m q) = compute_bounds m q).
  { rewrite !compute_bounds_all. f_equal. unfold all_contribs. rewrite E, D. f_equal. apply map_ext_in. intros c Hc. apply in_seq in Hc.
    f_equal. apply (limited_mean m q c F). lia. }
  rewrite C. intros c i v x N V. now apply (limited_bounded m q c i).
Qed.

(** a mesh of two triangles *)
Definition third := qq 1 3.
Definition two_triangles := mkMesh [[0;1;2]%nat; [1;3;2]%nat] [[third;third;third];[third;third;third]]
  [[1;2]%nat;[0;2]%nat;[0;1]%nat] [(0,1)%nat;(0,2)%nat;(1,2)%nat;(1,0)%nat] [] [] [] [] true.
Lemma two_triangles_fit a b c d e f : fits two_triangles [[a;b;c];[d;e;f]].
Proof.
  constructor; try reflexivity.
  - intros [|[|k]] H; cbn in *; try lia; (split; [reflexivity|]); (split; [reflexivity|]); (split; [|apply qc_eq_iff; reflexivity]);
      intros w [<-|[<-|[<-|[]]]]; discriminate.
  - intros k g [[= <- <-]|[[= <- <-]|[[= <- <-]|[[= <- <-]|[]]]]]; cbn; (split; [lia|]); (split; [discriminate|]);
      intros i [<-|[<-|[]]]; lia.
  - intros k [].
  - intros k [].
Qed.

(** Refuted with a boundary: the mean of a boundary facet is itself limited, so
    limiting again changes the field again. *)
Theorem C36_idempotent_refuted : exists m q, fits m q /\ apply_limiter m (apply_limiter m q) <> apply_limiter m q.
Proof.
  exists two_triangles, [[qz 9; qz 0; qz 0]; [qz 0; qz 0; qz 0]]. split; [apply two_triangles_fit|]. intros H.
  apply (f_equal (map (map this))) in H. vm_compute in H. discriminate.
Qed.

(** A field of values beyond the initial bounds +-1e10 is limited against those
    instead of the adjacent means. *)
Theorem C36_huge_values_refuted : exists m q v, fits m q /\ (exists x, around m q v x) /\ ~ around m q v (snd (compute_bounds m q) v).
Proof.
  set (h := qz 20000000000). exists two_triangles, [[h; h; h]; [h; h; h]], 0%nat. split; [apply two_triangles_fit|]. split.
  - eexists. apply (A_cell _ _ _ 0%nat); cbn; auto.
  - assert (E : snd (compute_bounds two_triangles [[h; h; h]; [h; h; h]]) 0%nat = big).
    { apply qc_eq_iff. vm_compute. reflexivity. }
    rewrite E. assert (K : big < h) by (vm_compute; reflexivity). clearbody h. intros A.
    assert (R : forall c i y, value_at [[h; h; h]; [h; h; h]] c i y -> h <= y /\ y <= h).
    { intros c i y [l [H1 H2]]. destruct c as [|[|[|c]]]; cbn in H1; try discriminate; injection H1 as <-;
      destruct i as [|[|[|[|i]]]]; cbn in H2; try discriminate; injection H2 as <-; split; apply Qcle_refl. }
    destruct (around_range two_triangles _ 0%nat _ h h (two_triangles_fit _ _ _ _ _ _) R A) as [X _].
    apply Qcle_not_lt in X. now apply X.
Qed.

(** Vector fields are limited component by component. *)
Theorem C36_vector_componentwise m dim q i : vshape m dim q -> (i < dim)%nat ->
  component i (apply_vector m dim q) = apply_limiter m (component i q).
Proof. apply apply_vector_component. Qed.

(** Non-trivial case: an overshoot in the first cell is cut back to the means
    around its vertices, the second cell is left alone. *)
Example C36_case :
  let m := two_triangles in let q := [[qz 9; qz 0; qz 0]; [qz 1; qz 1; qz 1]] in
  fits m q /\ within_big m q /\
  map (map this) (apply_limiter m q) = [[(9 # 2)%Q; (9 # 4)%Q; (9 # 4)%Q]; [1%Q; 1%Q; 1%Q]] /\
  vshape m 2 [[[qz 9; qz 1]; [qz 0; qz 1]; [qz 0; qz 1]]; [[qz 1; qz 0]; [qz 1; qz 0]; [qz 1; qz 0]]].
Proof.
  cbn zeta. split; [apply two_triangles_fit|]. split; [|split; [vm_compute; reflexivity|]].
  - intros v x A. assert (R : forall c i y, value_at [[qz 9; qz 0; qz 0]; [qz 1; qz 1; qz 1]] c i y -> qz 0 <= y /\ y <= qz 9).
    { intros c i y [l [H1 H2]]. destruct c as [|[|[|c]]]; cbn in H1; try discriminate; injection H1 as <-;
      destruct i as [|[|[|[|i]]]]; cbn in H2; try discriminate; injection H2 as <-; split; apply qz_le; lia. }
    destruct (around_range two_triangles _ v _ (qz 0) (qz 9) (two_triangles_fit _ _ _ _ _ _) R A) as [X Y].
    split; [eapply Qcle_trans; [|exact X]|eapply Qcle_trans; [exact Y|]]; vm_compute; discriminate.
  - split; [reflexivity|]. repeat constructor.
Qed.

Print Assumptions C36_bounds_contain.
Print Assumptions C36_bounds_attained.
Print Assumptions C36_limited_between_means.
Print Assumptions C36_mean_preserved.
Print Assumptions C36_admissible_unchanged.
Print Assumptions C36_no_new_extrema.
Print Assumptions C36_idempotent.
Print Assumptions C36_idempotent_refuted.
Print Assumptions C36_huge_values_refuted.
Print Assumptions C36_vector_componentwise.
