(** C76: the source points the ocean model interpolators keep. *)
From Coq Require Import String Sorting.Sorted.
From Verif Require Import Num SourcePoints_Model.
Import ListNotations.
Open Scope nat_scope.

(** ** Specification *)
(** Squared distance in degrees. *)
Definition dist2 (p q : pt) : Qc :=
  ((lat p - lat q) * (lat p - lat q) + (lon p - lon q) * (lon p - lon q))%Qc.
(** [kd] answers nearest neighbour queries on nonempty lists. *)
Definition answers (kd : list pt -> pt -> nat) : Prop :=
  forall l t d, l <> [] -> (kd l t < length l) /\
    forall i, i < length l -> (dist2 (nth (kd l t) l d) t <= dist2 (nth i l d) t)%Qc.
(** A point with data: inside the grid and not masked at every level. *)
Definition valid (n : nat) (v : ncvar) (j : nat) : Prop :=
  j < n /\ exists f x, In f (nv_layers v) /\ f j = Some x.
(** Between two bounds of the targets, with a margin of 0.2 degrees. *)
Definition near_targets (targets : list pt) (p : pt) : Prop :=
  exists a b c d, In a targets /\ In b targets /\ In c targets /\ In d targets /\
    (lat a - qq 1 5 <= lat p)%Qc /\ (lat p <= lat b + qq 1 5)%Qc /\
    (lon c - qq 1 5 <= lon p)%Qc /\ (lon p <= lon d + qq 1 5)%Qc.

(** ** Lists *)
Lemma filter_seq_sorted : forall f n a, StronglySorted lt (filter f (seq a n)).
Proof.
  intros f n. induction n as [|n IH]; intro a; cbn [seq filter]; [constructor|].
  destruct (f a); [|apply IH]. constructor; [apply IH|].
  apply Forall_forall. intros x Hx. apply filter_In in Hx. destruct Hx as [Hx _].
  apply in_seq in Hx. lia.
Qed.
Lemma existsb_eqb : forall j l, existsb (Nat.eqb j) l = true <-> In j l.
Proof.
  intros j l. rewrite existsb_exists. split.
  - intros (x & Hx & E). apply Nat.eqb_eq in E. now subst.
  - intro H. exists j. split; [exact H|apply Nat.eqb_refl].
Qed.
Lemma land_valid : forall n v j, j < n -> (land v j = false <-> valid n v j).
Proof.
  intros n v j Hj. unfold valid, land. split.
  - intro H. split; [exact Hj|]. revert H. induction (nv_layers v) as [|f l IH]; intro H; [discriminate H|].
    cbn [forallb] in H. apply andb_false_iff in H. destruct H as [H|H].
    + destruct (f j) as [x|] eqn:E; [|discriminate H]. exists f, x. split; [now left|exact E].
    + destruct (IH H) as (g & x & G & E). exists g, x. split; [now right|exact E].
  - intros (_ & f & x & Hf & E). apply not_true_iff_false. intro Q.
    rewrite forallb_forall in Q. specialize (Q f Hf). rewrite E in Q. discriminate Q.
Qed.
Lemma in_good : forall n v j, In j (filter (fun j => negb (land v j)) (seq 0 n)) <-> valid n v j.
Proof.
  intros n v j. rewrite filter_In, in_seq, negb_true_iff. split.
  - intros [[_ H] L]. apply land_valid; [lia|exact L].
  - intro H. pose proof (proj1 H) as Hj. split; [lia|]. apply (land_valid n); assumption.
Qed.

(** ** Bounds *)
Lemma qmin_le : forall x y, (qmin x y <= x)%Qc /\ (qmin x y <= y)%Qc.
Proof.
  intros x y. unfold qmin. destruct (Qcleb_spec x y) as [H|H]; split; try assumption; try apply Qcle_refl.
  apply Qcnot_le_lt in H. apply Qclt_le_weak. exact H.
Qed.
Lemma qmax_ge : forall x y, (x <= qmax x y)%Qc /\ (y <= qmax x y)%Qc.
Proof.
  intros x y. unfold qmax. destruct (Qcleb_spec x y) as [H|H]; split; try assumption; try apply Qcle_refl.
  apply Qcnot_le_lt in H. apply Qclt_le_weak. exact H.
Qed.
Lemma minimum_le : forall l x, (minimum x l <= x)%Qc /\ forall y, In y l -> (minimum x l <= y)%Qc.
Proof.
  unfold minimum. induction l as [|z l IH]; intro x; cbn [fold_left].
  - split; [apply Qcle_refl|intros y []].
  - destruct (IH (qmin x z)) as [A B]. destruct (qmin_le x z) as [C D]. split.
    + exact (Qcle_trans _ _ _ A C).
    + intros y [<-|Hy]; [exact (Qcle_trans _ _ _ A D)|exact (B y Hy)].
Qed.
Lemma minimum_in : forall l x, minimum x l = x \/ In (minimum x l) l.
Proof.
  unfold minimum. induction l as [|z l IH]; intro x; cbn [fold_left]; [now left|].
  destruct (IH (qmin x z)) as [E|E]; [|right; now right]. rewrite E. unfold qmin.
  destruct (Qcleb x z); [now left|right; now left].
Qed.
Lemma maximum_ge : forall l x, (x <= maximum x l)%Qc /\ forall y, In y l -> (y <= maximum x l)%Qc.
Proof.
  unfold maximum. induction l as [|z l IH]; intro x; cbn [fold_left].
  - split; [apply Qcle_refl|intros y []].
  - destruct (IH (qmax x z)) as [A B]. destruct (qmax_ge x z) as [C D]. split.
    + exact (Qcle_trans _ _ _ C A).
    + intros y [<-|Hy]; [exact (Qcle_trans _ _ _ D A)|exact (B y Hy)].
Qed.
Lemma maximum_in : forall l x, maximum x l = x \/ In (maximum x l) l.
Proof.
  unfold maximum. induction l as [|z l IH]; intro x; cbn [fold_left]; [now left|].
  destruct (IH (qmax x z)) as [E|E]; [|right; now right]. rewrite E. unfold qmax.
  destruct (Qcleb x z); [right; now left|now left].
Qed.
Lemma min_attained : forall (g : pt -> Qc) t0 rest, exists a, In a (t0 :: rest) /\
  minimum (g t0) (map g (t0 :: rest)) = g a.
Proof.
  intros g t0 rest. destruct (minimum_in (map g (t0 :: rest)) (g t0)) as [E|E].
  - exists t0. split; [now left|exact E].
  - apply in_map_iff in E. destruct E as (a & E & Ha). exists a. split; [exact Ha|now symmetry].
Qed.
Lemma max_attained : forall (g : pt -> Qc) t0 rest, exists a, In a (t0 :: rest) /\
  maximum (g t0) (map g (t0 :: rest)) = g a.
Proof.
  intros g t0 rest. destruct (maximum_in (map g (t0 :: rest)) (g t0)) as [E|E].
  - exists t0. split; [now left|exact E].
  - apply in_map_iff in E. destruct E as (a & E & Ha). exists a. split; [exact Ha|now symmetry].
Qed.
Lemma in_box_spec : forall t0 rest p, in_box (t0 :: rest) t0 p = true <-> near_targets (t0 :: rest) p.
Proof.
  intros t0 rest p. unfold in_box. rewrite !andb_true_iff.
  destruct (min_attained lat t0 rest) as (a & Ha & Ea).
  destruct (max_attained lat t0 rest) as (b & Hb & Eb).
  destruct (min_attained lon t0 rest) as (c & Hc & Ec).
  destruct (max_attained lon t0 rest) as (d & Hd & Ed).
  split.
  - intros [[[A B] C] D].
    destruct (Qcleb_spec (minimum (lat t0) (map lat (t0 :: rest)) - buffer)%Qc (lat p)) as [A'|]; [|discriminate A].
    destruct (Qcleb_spec (lat p) (maximum (lat t0) (map lat (t0 :: rest)) + buffer)%Qc) as [B'|]; [|discriminate B].
    destruct (Qcleb_spec (minimum (lon t0) (map lon (t0 :: rest)) - buffer)%Qc (lon p)) as [C'|]; [|discriminate C].
    destruct (Qcleb_spec (lon p) (maximum (lon t0) (map lon (t0 :: rest)) + buffer)%Qc) as [D'|]; [|discriminate D].
    rewrite Ea in A'. rewrite Eb in B'. rewrite Ec in C'. rewrite Ed in D'.
    exists a, b, c, d. repeat split; assumption.
  - intros (a' & b' & c' & d' & Ia & Ib & Ic & Id & A & B & C & D).
    assert (LB : forall (g : pt -> Qc) q, In q (t0 :: rest) ->
       (minimum (g t0) (map g (t0 :: rest)) <= g q)%Qc).
    { intros g q Hq. apply minimum_le. now apply in_map. }
    assert (UB : forall (g : pt -> Qc) q, In q (t0 :: rest) ->
       (g q <= maximum (g t0) (map g (t0 :: rest)))%Qc).
    { intros g q Hq. apply maximum_ge. now apply in_map. }
    assert (M : forall x y z w : Qc, (x <= y)%Qc -> (y - z <= w)%Qc -> (x - z <= w)%Qc).
    { intros x y z w H1 H2. eapply Qcle_trans; [|exact H2]. apply Qcplus_le_compat; [exact H1|apply Qcle_refl]. }
    assert (P : forall x y z w : Qc, (x <= y)%Qc -> (w <= x + z)%Qc -> (w <= y + z)%Qc).
    { intros x y z w H1 H2. eapply Qcle_trans; [exact H2|]. apply Qcplus_le_compat; [exact H1|apply Qcle_refl]. }
    repeat split.
    + destruct (Qcleb_spec (minimum (lat t0) (map lat (t0 :: rest)) - buffer)%Qc (lat p)) as [|N]; [reflexivity|].
      destruct N. exact (M _ _ _ _ (LB lat a' Ia) A).
    + destruct (Qcleb_spec (lat p) (maximum (lat t0) (map lat (t0 :: rest)) + buffer)%Qc) as [|N]; [reflexivity|].
      destruct N. exact (P _ _ _ _ (UB lat b' Ib) B).
    + destruct (Qcleb_spec (minimum (lon t0) (map lon (t0 :: rest)) - buffer)%Qc (lon p)) as [|N]; [reflexivity|].
      destruct N. exact (M _ _ _ _ (LB lon c' Ic) C).
    + destruct (Qcleb_spec (lon p) (maximum (lon t0) (map lon (t0 :: rest)) + buffer)%Qc) as [|N]; [reflexivity|].
      destruct N. exact (P _ _ _ _ (UB lon d' Id) D).
Qed.

(** ** NCOM *)
(** The points kept are listed in grid order, each once; they are the points with
    data near the targets and the nearest point with data of every target. *)
Theorem C76_ncom_nodes : forall kd n grid vars v targets nodes,
  answers kd -> ncom_varkey vars = Some v -> ncom_mapping kd n grid vars targets = inl nodes ->
  StronglySorted lt nodes /\
  forall j, In j nodes <->
    valid n v j /\
    (near_targets targets (grid j) \/
     exists t, In t targets /\
       j = nth (kd (map grid (filter (fun j => negb (land v j)) (seq 0 n))) t)
               (filter (fun j => negb (land v j)) (seq 0 n)) 0).
Proof.
  intros kd n grid vars v targets nodes K Hv H. unfold ncom_mapping in H. rewrite Hv in H.
  destruct targets as [|t0 rest]; [discriminate H|].
  destruct (nv_scalar_mask v); [discriminate H|]. cbv zeta in H.
  set (good := filter (fun j => negb (land v j)) (seq 0 n)) in *.
  destruct (existsb _ _) eqn:Ex in H; [discriminate H|].
  assert (Ix : forall t, In t (t0 :: rest) -> kd (map grid good) t < length good).
  { intros t Ht. destruct (Nat.leb (length good) (kd (map grid good) t)) eqn:L.
    - exfalso. apply not_true_iff_false in Ex. apply Ex. apply existsb_exists.
      exists (kd (map grid good) t). split; [now apply in_map|exact L].
    - apply Nat.leb_gt in L. exact L. }
  destruct (filter _ (seq 0 n)) as [|x l] eqn:En in H; [discriminate H|].
  injection H as <-. rewrite <- En. split; [apply filter_seq_sorted|].
  intro j. rewrite filter_In, orb_true_iff, andb_true_iff, existsb_eqb, in_box_spec, negb_true_iff, in_seq.
  split.
  - intros [[_ Hj] [[Hb Hl]|Hn]].
    + split; [apply land_valid; [lia|exact Hl]|now left].
    + apply in_map_iff in Hn. destruct Hn as (i & E & Hi). apply in_map_iff in Hi.
      destruct Hi as (t & Et & Ht). split.
      * apply in_good. fold good. rewrite <- E. apply nth_In. rewrite <- Et. exact (Ix t Ht).
      * right. exists t. split; [exact Ht|]. rewrite <- E, <- Et. reflexivity.
  - intros [Hval Hor]. pose proof (proj1 Hval) as Hj. split; [lia|].
    destruct Hor as [Hb|(t & Ht & E)].
    + left. split; [exact Hb|]. apply (land_valid n); assumption.
    + right. rewrite E. apply in_map_iff. exists (kd (map grid good) t). split; [reflexivity|].
      now apply in_map.
Qed.

(** Hence the value used where no interpolation is possible is that of the nearest
    point with data in the whole file, although only a part of it is kept. *)
Theorem C76_ncom_nearest : forall kd n grid vars v targets nodes t,
  answers kd -> ncom_varkey vars = Some v -> ncom_mapping kd n grid vars targets = inl nodes ->
  In t targets ->
  exists j, In j nodes /\ forall i, valid n v i -> (dist2 (grid j) t <= dist2 (grid i) t)%Qc.
Proof.
  intros kd n grid vars v targets nodes t K Hv H Ht.
  destruct (C76_ncom_nodes kd n grid vars v targets nodes K Hv H) as [_ Ch].
  set (good := filter (fun j => negb (land v j)) (seq 0 n)) in *.
  assert (NE : good <> []).
  { intro E. destruct nodes as [|x l].
    - unfold ncom_mapping in H. rewrite Hv in H. destruct targets as [|t0 rest]; [discriminate H|].
      destruct (nv_scalar_mask v); [discriminate H|]. cbv zeta in H.
      destruct (existsb _ _) in H; [discriminate H|]. destruct (filter _ (seq 0 n)) in H; discriminate H.
    - destruct (proj1 (Ch x) (or_introl eq_refl)) as [Hx _]. apply in_good in Hx. fold good in Hx.
      rewrite E in Hx. destruct Hx. }
  assert (NM : map grid good <> []) by (intro E; apply NE; destruct good; [reflexivity|discriminate E]).
  destruct (K (map grid good) t (grid 0) NM) as [L Q]. rewrite map_length in L, Q.
  exists (nth (kd (map grid good) t) good 0). split.
  - apply Ch. split.
    + apply in_good. fold good. apply nth_In. exact L.
    + right. exists t. split; [exact Ht|reflexivity].
  - intros i Hi. apply in_good in Hi. fold good in Hi. destruct (In_nth good i 0 Hi) as (k & Hk & E).
    specialize (Q k Hk). rewrite !map_nth in Q. rewrite E in Q. exact Q.
Qed.

(** Nothing within 0.2 degrees of a target is lost. *)
Theorem C76_ncom_margin : forall kd n grid vars v targets nodes t j,
  answers kd -> ncom_varkey vars = Some v -> ncom_mapping kd n grid vars targets = inl nodes ->
  In t targets -> valid n v j ->
  (lat t - qq 1 5 <= lat (grid j))%Qc -> (lat (grid j) <= lat t + qq 1 5)%Qc ->
  (lon t - qq 1 5 <= lon (grid j))%Qc -> (lon (grid j) <= lon t + qq 1 5)%Qc -> In j nodes.
Proof.
  intros kd n grid vars v targets nodes t j K Hv H Ht Hj A B C D.
  apply (C76_ncom_nodes kd n grid vars v targets nodes K Hv H). split; [exact Hj|].
  left. exists t, t, t, t. repeat split; assumption.
Qed.

(** It works exactly when some point has data, some target exists and the mask is an
    array; otherwise it raises. *)
Theorem C76_ncom_outcome : forall kd n grid vars v targets,
  answers kd -> ncom_varkey vars = Some v ->
  ((exists nodes, ncom_mapping kd n grid vars targets = inl nodes) <->
   targets <> [] /\ nv_scalar_mask v = false /\ (exists j, valid n v j)).
Proof.
  intros kd n grid vars v targets K Hv.
  set (good := filter (fun j => negb (land v j)) (seq 0 n)).
  split.
  - intros [nodes H]. unfold ncom_mapping in H. rewrite Hv in H.
    destruct targets as [|t0 rest]; [discriminate H|]. destruct (nv_scalar_mask v) eqn:Em; [discriminate H|].
    split; [discriminate|]. split; [reflexivity|]. cbv zeta in H. fold good in H.
    destruct good as [|g0 gr] eqn:Eg.
    + cbn in H. discriminate H.
    + exists g0. apply in_good. fold good. rewrite Eg. now left.
  - intros (Ht & Hm & j & Hj). unfold ncom_mapping. rewrite Hv, Hm.
    destruct targets as [|t0 rest]; [contradiction|]. cbv zeta. fold good.
    assert (NE : good <> []).
    { intro E. apply in_good in Hj. fold good in Hj. rewrite E in Hj. destruct Hj. }
    assert (NM : map grid good <> []) by (intro E; apply NE; destruct good; [reflexivity|discriminate E]).
    assert (Lk : forall t, kd (map grid good) t < length good).
    { intro t. destruct (K (map grid good) t (grid 0) NM) as [L _]. now rewrite map_length in L. }
    assert (Ex : existsb (fun i => Nat.leb (length good) i) (map (kd (map grid good)) (t0 :: rest)) = false).
    { apply not_true_iff_false. intro Q. apply existsb_exists in Q. destruct Q as (i & Hi & L).
      apply in_map_iff in Hi. destruct Hi as (t & <- & _). apply Nat.leb_le in L. specialize (Lk t). lia. }
    rewrite Ex.
    match goal with |- context [match ?f with [] => _ | _ => _ end] => destruct f as [|x l] eqn:En end; [|eexists; reflexivity].
    exfalso.
    assert (X : In (nth (kd (map grid good) t0) good 0) []); [|destruct X].
    rewrite <- En. apply filter_In.
    assert (G : In (nth (kd (map grid good) t0) good 0) good) by (apply nth_In, Lk).
    split; [exact (proj1 (proj1 (filter_In _ _ _) G))|].
    apply orb_true_iff. right. apply existsb_eqb. apply in_map_iff. exists (kd (map grid good) t0).
    split; [reflexivity|now left].
Qed.
(** The three failures: no field variable, no target, no masked or no valid value. *)
Theorem C76_ncom_failures : forall kd n grid vars targets,
  (ncom_varkey vars = None -> ncom_mapping kd n grid vars targets = inr AssertionErr) /\
  (forall v, ncom_varkey vars = Some v -> targets = [] -> ncom_mapping kd n grid vars targets = inr ValueErr) /\
  (forall v, ncom_varkey vars = Some v -> targets <> [] ->
     (nv_scalar_mask v = true \/ (forall j, ~ valid n v j)) ->
     ncom_mapping kd n grid vars targets = inr IndexErr).
Proof.
  intros kd n grid vars targets. unfold ncom_mapping. split; [|split].
  - intros ->. reflexivity.
  - intros v -> ->. reflexivity.
  - intros v -> Ht Hor. destruct targets as [|t0 rest]; [contradiction|].
    destruct (nv_scalar_mask v); [reflexivity|]. destruct Hor as [Q|Q]; [discriminate Q|]. cbv zeta.
    destruct (filter (fun j => negb (land v j)) (seq 0 n)) as [|g0 gr] eqn:Eg; [reflexivity|].
    exfalso. apply (Q g0). apply in_good. rewrite Eg. now left.
Qed.
(** The variable that decides: the first one of the file that is not an index. *)
Theorem C76_ncom_variable : forall vars v, ncom_varkey vars = Some v <->
  exists a b, vars = (a ++ v :: b)%list /\ ~ In (nv_name v) ["X_Index"; "Y_Index"; "level"]%string /\
    forall w, In w a -> In (nv_name w) ["X_Index"; "Y_Index"; "level"]%string.
Proof.
  assert (X : forall x, existsb (String.eqb x) skip_names = true <-> In x ["X_Index"; "Y_Index"; "level"]%string).
  { intro x. rewrite existsb_exists. unfold skip_names. split.
    - intros (y & Hy & E). apply String.eqb_eq in E. now subst.
    - intro H. exists x. split; [exact H|apply String.eqb_refl]. }
  induction vars as [|w r IH]; intro v; cbn [ncom_varkey].
  - split; [discriminate|]. intros ([|? ?] & b & E & _); discriminate E.
  - destruct (existsb (String.eqb (nv_name w)) skip_names) eqn:E.
    + rewrite IH. split.
      * intros (a & b & -> & N & A). exists (w :: a), b. split; [reflexivity|]. split; [exact N|].
        intros u [<-|Hu]; [now apply X|now apply A].
      * intros ([|w' a] & b & Q & N & A); cbn in Q; injection Q as <- ->.
        -- exfalso. apply N, X, E.
        -- exists a, b. split; [reflexivity|]. split; [exact N|]. intros u Hu. apply A. now right.
    + apply not_true_iff_false in E. rewrite X in E. split.
      * intro Q. injection Q as <-. exists [], r. split; [reflexivity|]. split; [exact E|intros ? []].
      * intros ([|w' a] & b & Q & N & A); cbn in Q; injection Q as Q1 Q2; [now subst|].
        exfalso. apply E. subst w'. apply A. now left.
Qed.

(** Row and column numbers name the point: distinct points have distinct ones. *)
Theorem C76_unravel : forall nx j, 0 < nx ->
  fst (unravel nx j) * nx + snd (unravel nx j) = j /\ snd (unravel nx j) < nx /\
  forall ny, j < ny * nx -> fst (unravel nx j) < ny.
Proof.
  intros nx j Hx. unfold unravel; cbn [fst snd]. split; [|split].
  - pose proof (Nat.div_mod j nx ltac:(lia)). lia.
  - apply Nat.mod_upper_bound. lia.
  - intros ny Hj. apply Nat.div_lt_upper_bound; [lia|]. rewrite Nat.mul_comm. exact Hj.
Qed.

(** ** ROMS and generic files *)
(** All corners of the triangle around a target are kept, and every point kept is
    such a corner or, if some target is outside the grid, a corner of the last
    triangle. *)
Theorem C76_subset : forall simplices find n targets j,
  (forall s, In s simplices -> forall k, In k s -> k < n) ->
  (In j (subset_nodes simplices find n targets) <->
   exists t, In t targets /\
     match find t with
     | Some i => In j (nth i simplices [])
     | None => In j (last simplices [])
     end).
Proof.
  intros simplices find n targets j B. unfold subset_nodes. rewrite filter_In, existsb_eqb, in_flat_map, in_seq.
  unfold simplex_of. split.
  - intros [_ (t & Ht & Hj)]. exists t. split; [exact Ht|]. destruct (find t); exact Hj.
  - intros (t & Ht & Hj).
    assert (In j (match find t with Some i => nth i simplices [] | None => last simplices [] end))
      by (destruct (find t); exact Hj).
    split; [|exists t; split; assumption]. split; [lia|]. cbn.
    assert (LS : forall l : list (list nat), In (last l []) l \/ last l [] = []).
    { induction l as [|a [|b l] IH]; [right; reflexivity|left; left; reflexivity|].
      destruct IH as [IH|IH]; [left; right; exact IH|right; exact IH]. }
    destruct (find t) as [i|].
    + destruct (nth_in_or_default i simplices []) as [Q|Q]; [exact (B _ Q j Hj)|]. rewrite Q in Hj. destruct Hj.
    + destruct (LS simplices) as [Q|Q]; [exact (B _ Q j Hj)|]. rewrite Q in Hj. destruct Hj.
Qed.
Theorem C76_subset_sorted : forall simplices find n targets,
  StronglySorted lt (subset_nodes simplices find n targets).
Proof. intros. apply filter_seq_sorted. Qed.

(** The rectangle read by the regular grid interpolator holds all of them and is
    the smallest such rectangle. *)
Lemma min_nat_spec : forall l x, (forall y, In y (x :: l) -> min_nat x l <= y) /\ In (min_nat x l) (x :: l).
Proof.
  unfold min_nat. induction l as [|z l IH]; intro x; cbn [fold_left].
  - split; [intros y [<-|[]]; lia|now left].
  - destruct (IH (Nat.min x z)) as [A B]. split.
    + intros y [<-|[<-|Hy]].
      * specialize (A _ (or_introl eq_refl)). lia.
      * specialize (A _ (or_introl eq_refl)). lia.
      * apply A. now right.
    + destruct B as [B|B]; [|right; now right]. rewrite <- B.
      destruct (Nat.min_spec x z) as [[_ ->]|[_ ->]]; [now left|right; now left].
Qed.
Lemma max_nat_spec : forall l x, (forall y, In y (x :: l) -> y <= max_nat x l) /\ In (max_nat x l) (x :: l).
Proof.
  unfold max_nat. induction l as [|z l IH]; intro x; cbn [fold_left].
  - split; [intros y [<-|[]]; lia|now left].
  - destruct (IH (Nat.max x z)) as [A B]. split.
    + intros y [<-|[<-|Hy]].
      * specialize (A _ (or_introl eq_refl)). lia.
      * specialize (A _ (or_introl eq_refl)). lia.
      * apply A. now right.
    + destruct B as [B|B]; [|right; now right]. rewrite <- B.
      destruct (Nat.max_spec x z) as [[_ ->]|[_ ->]]; [right; now left|now left].
Qed.
Theorem C76_rectangle : forall nx nodes r0 r1 c0 c1,
  rectangle nx nodes = inl ((r0, r1), (c0, c1)) ->
  (forall j, In j nodes -> r0 <= Nat.div j nx < r1 /\ c0 <= Nat.modulo j nx < c1) /\
  (exists a b c d, In a nodes /\ In b nodes /\ In c nodes /\ In d nodes /\
     Nat.div a nx = r0 /\ S (Nat.div b nx) = r1 /\ Nat.modulo c nx = c0 /\ S (Nat.modulo d nx) = c1).
Proof.
  intros nx nodes r0 r1 c0 c1 H. unfold rectangle in H.
  destruct nodes as [|j0 rest]; cbn [map] in H; [discriminate H|]. unfold unravel at 1 in H.
  rewrite !map_map in H. cbn [fst snd unravel] in H. injection H as <- <- <- <-.
  set (R := map (fun x => Nat.div x nx) rest). set (C := map (fun x => Nat.modulo x nx) rest).
  destruct (min_nat_spec R (Nat.div j0 nx)) as [A1 B1]. destruct (max_nat_spec R (Nat.div j0 nx)) as [A2 B2].
  destruct (min_nat_spec C (Nat.modulo j0 nx)) as [A3 B3]. destruct (max_nat_spec C (Nat.modulo j0 nx)) as [A4 B4].
  split.
  - intros j Hj.
    assert (IR : In (Nat.div j nx) (Nat.div j0 nx :: R)).
    { destruct Hj as [<-|Hj]; [now left|right]. apply in_map_iff. exists j. now split. }
    assert (IC : In (Nat.modulo j nx) (Nat.modulo j0 nx :: C)).
    { destruct Hj as [<-|Hj]; [now left|right]. apply in_map_iff. exists j. now split. }
    specialize (A1 _ IR). specialize (A2 _ IR). specialize (A3 _ IC). specialize (A4 _ IC). lia.
  - assert (BR : forall x, In x (Nat.div j0 nx :: R) -> exists a, In a (j0 :: rest) /\ Nat.div a nx = x).
    { intros x [<-|Hx]; [exists j0; split; [now left|reflexivity]|]. apply in_map_iff in Hx.
      destruct Hx as (a & E & Ha). exists a. split; [now right|exact E]. }
    assert (BC : forall x, In x (Nat.modulo j0 nx :: C) -> exists a, In a (j0 :: rest) /\ Nat.modulo a nx = x).
    { intros x [<-|Hx]; [exists j0; split; [now left|reflexivity]|]. apply in_map_iff in Hx.
      destruct Hx as (a & E & Ha). exists a. split; [now right|exact E]. }
    destruct (BR _ B1) as (a & Ia & Ea). destruct (BR _ B2) as (b & Ib & Eb).
    destruct (BC _ B3) as (c & Ic & Ec). destruct (BC _ B4) as (d & Id & Ed).
    exists a, b, c, d. repeat split; try assumption; now f_equal.
Qed.

(** The land points of the mask variable are left out, the order is kept. *)
Lemma filter_sorted : forall (f : nat -> bool) l, StronglySorted lt l -> StronglySorted lt (filter f l).
Proof.
  intros f l H. induction H as [|a l H IH F]; cbn [filter]; [constructor|].
  destruct (f a); [|exact IH]. constructor; [exact IH|]. apply Forall_forall. intros x Hx.
  apply filter_In in Hx. rewrite Forall_forall in F. apply F, Hx.
Qed.
Theorem C76_generic_select : forall simplices find n vars targets l ok,
  generic_mask vars = inl ok -> generic_select simplices find n vars targets = inl l ->
  StronglySorted lt l /\
  forall j, In j l <-> In j (subset_nodes simplices find n targets) /\ ok j = true.
Proof.
  intros simplices find n vars targets l ok Hm H. unfold generic_select in H. rewrite Hm in H.
  injection H as <-. split; [apply filter_sorted, filter_seq_sorted|intro j; apply filter_In].
Qed.
Theorem C76_roms_select : forall simplices find n wet targets,
  StronglySorted lt (roms_select simplices find n wet targets) /\
  forall j, In j (roms_select simplices find n wet targets) <->
    In j (subset_nodes simplices find n targets) /\ wet j = true.
Proof. intros. split; [apply filter_sorted, filter_seq_sorted|intro j; apply filter_In]. Qed.

(** The mask is that of the first time level of the first variable with a time axis,
    and that variable itself is never masked there at its first time level. *)
Theorem C76_generic_mask : forall vars ok, generic_mask vars = inl ok <->
  exists a v f r b, vars = (a ++ v :: b)%list /\ nv_3d v = true /\ nv_scalar_mask v = false /\
    nv_layers v = f :: r /\ (forall w, In w a -> nv_3d w = false) /\
    ok = fun j => negb (masked (f j)).
Proof.
  induction vars as [|w vr IH]; intro ok; cbn [generic_mask].
  - split; [discriminate|]. intros ([|? ?] & v & f & r & b & E & _); discriminate E.
  - destruct (nv_3d w) eqn:E.
    + split.
      * destruct (nv_scalar_mask w) eqn:M; [discriminate|]. destruct (nv_layers w) as [|f r] eqn:L; [discriminate|].
        intro Q. injection Q as <-. exists [], w, f, r, vr. repeat split; try assumption. intros ? [].
      * intros ([|w' a] & v & f & r & b & Q & V & M & L & A & ->); cbn in Q; injection Q as Q1 Q2.
        -- subst w. rewrite M, L. reflexivity.
        -- exfalso. subst w'. rewrite (A w (or_introl eq_refl)) in E. discriminate E.
    + rewrite IH. split.
      * intros (a & v & f & r & b & -> & V & M & L & A & ->). exists (w :: a), v, f, r, b.
        repeat split; try assumption. intros u [<-|Hu]; [exact E|now apply A].
      * intros ([|w' a] & v & f & r & b & Q & V & M & L & A & ->); cbn in Q; injection Q as Q1 Q2.
        -- exfalso. subst w. rewrite V in E. discriminate E.
        -- exists a, v, f, r, b. repeat split; try assumption. intros u Hu. apply A. now right.
Qed.

(** The points are chosen once: every later call, for any file, variable and time,
    reads the points of the first file. *)
Definition gcalls simplices find n targets (s : gstate) (calls : list (list ncvar * string * nat)) : gstate :=
  fold_left (fun s c => fst (generic_interpolate simplices find n targets s (fst (fst c)) (snd (fst c)) (snd c))) calls s.
Theorem C76_chosen_once : forall simplices find n targets vars name itime l calls,
  generic_select simplices find n vars targets = inl l ->
  gcalls simplices find n targets None ((vars, name, itime) :: calls) = Some l.
Proof.
  intros simplices find n targets vars name itime l calls H. unfold gcalls. cbn [fold_left fst snd].
  assert (F : forall vars name itime,
     fst (generic_interpolate simplices find n targets (Some l) vars name itime) = Some l).
  { intros. unfold generic_interpolate. cbv zeta. destruct (find_var _ _) as [v|]; [|reflexivity].
    now destruct (nth_error _ _). }
  replace (fst (generic_interpolate simplices find n targets None vars name itime)) with (Some l).
  - induction calls as [|[[vs nm] it] calls IH]; cbn [fold_left fst snd]; [reflexivity|]. rewrite F. exact IH.
  - unfold generic_interpolate. rewrite H. cbv zeta. destruct (find_var _ _) as [v|]; [|reflexivity].
    now destruct (nth_error _ _).
Qed.
(** Values are in the order of the points and belong to the requested variable and time. *)
Theorem C76_values : forall simplices find n targets s vars name itime s' vals,
  generic_interpolate simplices find n targets s vars name itime = (s', inl vals) ->
  exists l v f, s' = Some l /\ In v vars /\ nv_name v = name /\ nth_error (nv_layers v) itime = Some f /\
    length vals = length l /\ forall k d, k < length l -> nth_error vals k = Some (f (nth k l d)).
Proof.
  intros simplices find n targets s vars name itime s' vals H. unfold generic_interpolate in H. cbv zeta in H.
  destruct (match s with Some l => inl l | None => generic_select simplices find n vars targets end) as [l|e];
    [|discriminate H].
  destruct (find_var vars name) as [v|] eqn:Ev; [|discriminate H].
  destruct (nth_error (nv_layers v) itime) as [f|] eqn:Ef; [|discriminate H]. injection H as <- <-.
  assert (V : In v vars /\ nv_name v = name).
  { revert Ev. induction vars as [|w r IH]; cbn [find_var]; [discriminate|].
    destruct (String.eqb (nv_name w) name) eqn:E.
    - intro Q. injection Q as <-. split; [now left|now apply String.eqb_eq].
    - intro Q. destruct (IH Q). split; [now right|assumption]. }
  exists l, v, f. split; [reflexivity|]. split; [apply V|]. split; [apply V|]. split; [exact Ef|].
  split; [apply map_length|]. intros k d Hk. rewrite nth_error_map.
  rewrite (nth_error_nth' l d Hk). reflexivity.
Qed.
(** Lookup by standard name: the first variable that carries it. *)
Theorem C76_standard_name : forall vars std name, nc_var_name vars std = inl name <->
  exists a b, vars = (a ++ (name, Some std) :: b)%list /\ forall w, In w a -> snd w <> Some std.
Proof.
  induction vars as [|[nm s] r IH]; intros std name; cbn [nc_var_name].
  - split; [discriminate|]. intros ([|? ?] & b & E & _); discriminate E.
  - assert (R : (s <> Some std) -> (nc_var_name r std = inl name <->
       exists a b, ((nm, s) :: r = a ++ (name, Some std) :: b)%list /\ forall w, In w a -> snd w <> Some std)).
    { intro N. rewrite IH. split.
      - intros (a & b & -> & A). exists ((nm, s) :: a), b. split; [reflexivity|]. intros w [<-|Hw]; [exact N|now apply A].
      - intros ([|w a] & b & Q & A); cbn in Q; injection Q as Q1 Q2.
        + exfalso. now apply N.
        + exists a, b. split; [exact Q2|]. intros u Hu. apply A. now right. }
    destruct s as [s|]; [|apply R; discriminate].
    destruct (String.eqb_spec s std) as [->|N]; [|apply R; congruence].
    split.
    + intro Q. injection Q as <-. exists [], r. split; [reflexivity|intros ? []].
    + intros ([|w a] & b & Q & A); cbn in Q; injection Q as Q1 Q2; [now subst|].
      exfalso. apply (A w (or_introl eq_refl)). now rewrite <- Q1.
Qed.
Theorem C76_standard_name_missing : forall vars std,
  (forall w, In w vars -> snd w <> Some std) <-> nc_var_name vars std = inr AssertionErr.
Proof.
  induction vars as [|[nm s] r IH]; intro std; cbn [nc_var_name].
  - split; [reflexivity|intros _ ? []].
  - assert (R : s <> Some std -> ((forall w, In w ((nm, s) :: r) -> snd w <> Some std) <-> nc_var_name r std = inr AssertionErr)).
    { intro N. rewrite <- IH. split.
      - intros H w Hw. apply H. now right.
      - intros H w [<-|Hw]; [exact N|now apply H]. }
    destruct s as [s|]; [|apply R; discriminate].
    destruct (String.eqb_spec s std) as [->|N]; [|apply R; congruence].
    split; [|discriminate]. intro H. exfalso. apply (H (nm, Some std)); [now left|reflexivity].
Qed.

(** ** What does not hold *)
(** Four points on a line of latitude 0, longitudes 0, 1, 2, 3. *)
Definition line4 (j : nat) : pt := (qz 0, qn j).
(** A nearest neighbour search over a list. *)
Fixpoint argmin (best : nat) (bd : Qc) (k : nat) (l : list pt) (t : pt) : nat :=
  match l with
  | [] => best
  | p :: r => if Qcltb (dist2 p t) bd then argmin k (dist2 p t) (S k) r t else argmin best bd (S k) r t
  end.
Definition brute (l : list pt) (t : pt) : nat :=
  match l with [] => 0 | p :: r => argmin 0 (dist2 p t) 1 r t end.
Lemma argmin_spec : forall t d l pre best,
  best < length pre -> (forall i, i < length pre -> (dist2 (nth best pre d) t <= dist2 (nth i pre d) t)%Qc) ->
  argmin best (dist2 (nth best pre d) t) (length pre) l t < length (pre ++ l) /\
  forall i, i < length (pre ++ l) ->
    (dist2 (nth (argmin best (dist2 (nth best pre d) t) (length pre) l t) (pre ++ l) d) t
     <= dist2 (nth i (pre ++ l) d) t)%Qc.
Proof.
  intros t d. induction l as [|p r IH]; intros pre best Hb Hmin; cbn [argmin].
  - rewrite app_nil_r. split; assumption.
  - assert (E : (pre ++ p :: r = (pre ++ [p]) ++ r)%list) by (rewrite <- app_assoc; reflexivity). rewrite E.
    assert (Lp : length (pre ++ [p]) = S (length pre)) by (rewrite app_length; cbn; lia).
    assert (Np : nth (length pre) (pre ++ [p]) d = p) by (rewrite app_nth2, Nat.sub_diag; [reflexivity|lia]).
    destruct (Qcltb_spec (dist2 p t) (dist2 (nth best pre d) t)) as [L|L].
    + rewrite <- Lp. pose proof (IH (pre ++ [p]) (length pre)) as Q. rewrite Np in Q. apply Q; [lia|].
      intros i Hi. destruct (Nat.eq_dec i (length pre)) as [->|Ni]; [rewrite Np; apply Qcle_refl|].
      rewrite app_nth1 by lia. eapply Qcle_trans; [apply Qclt_le_weak, L|]. apply Hmin. lia.
    + replace (nth best pre d) with (nth best (pre ++ [p]) d) by (apply app_nth1; exact Hb).
      rewrite <- Lp. apply IH; [lia|].
      intros i Hi. rewrite (app_nth1 pre) by exact Hb.
      destruct (Nat.eq_dec i (length pre)) as [->|Ni].
      * rewrite Np. apply Qcnot_lt_le. exact L.
      * rewrite app_nth1 by lia. apply Hmin. lia.
Qed.
Lemma brute_answers : answers brute.
Proof.
  intros l t d H. destruct l as [|p r]; [contradiction|].
  exact (argmin_spec t d r [p] 0 (Nat.lt_0_succ _) ltac:(intros [|i] Hi; [apply Qcle_refl|cbn in Hi; lia])).
Qed.

Definition full (name : string) (l : list (option Qc)) : ncvar :=
  mk_ncvar name [fun j => nth j l None] true false.
Definition s1 := Some (qz 1).
(** The mask is taken from the first variable only: another variable of the same file
    may have no data at a point that is kept, so masked values are interpolated. *)
Theorem C76_other_variable_masked_refuted :
  ~ (forall kd n grid vars targets nodes w f j, answers kd ->
       ncom_mapping kd n grid vars targets = inl nodes -> In w vars -> In f (nv_layers w) -> In j nodes ->
       f j <> None).
Proof.
  intro H.
  refine (H brute 4 line4 [full "Salinity" [s1; s1; s1; None]; full "V_Velocity" [s1; None; s1; None]]
            [(qz 0, qz 1)] [1] (full "V_Velocity" [s1; None; s1; None]) _ 1 brute_answers _
            (or_intror (or_introl eq_refl)) (or_introl eq_refl) (or_introl eq_refl) eq_refl).
  vm_compute. reflexivity.
Qed.
(** A file without a masked value cannot be used at all. *)
Theorem C76_unmasked_file_refuted :
  ~ (forall kd n grid vars v targets, answers kd -> ncom_varkey vars = Some v ->
       targets <> [] -> (forall j, j < n -> valid n v j) -> 0 < n ->
       exists nodes, ncom_mapping kd n grid vars targets = inl nodes).
Proof.
  intro H.
  destruct (H brute 4 line4 [mk_ncvar "Salinity" [fun _ => s1] true true]
              (mk_ncvar "Salinity" [fun _ => s1] true true) [(qz 0, qz 1)] brute_answers eq_refl) as [nodes E].
  - discriminate.
  - intros j Hj. split; [exact Hj|]. exists (fun _ => s1), (qz 1). split; [now left|reflexivity].
  - lia.
  - discriminate E.
Qed.
(** With the triangulation based selection, a target outside the grid takes the corners
    of the last triangle: the nearest point of the file need not be kept. *)
Theorem C76_outside_target_refuted :
  ~ (forall simplices find n grid targets t, (forall s, In s simplices -> forall k, In k s -> k < n) ->
       In t targets -> 0 < n ->
       exists j, In j (subset_nodes simplices find n targets) /\
         forall i, i < n -> (dist2 (grid j) t <= dist2 (grid i) t)%Qc).
Proof.
  intro H.
  destruct (H [[0; 1; 2]; [1; 2; 3]] (fun _ => None) 4
              (fun j => nth j [(qz 0, qz 0); (qz 0, qz 1); (qz 1, qz 0); (qz 1, qz 1)] (qz 0, qz 0))
              [(qz (-1), qz (-1))] (qz (-1), qz (-1))) as (j & Hj & Hm).
  - intros s [<-|[<-|[]]] k [<-|[<-|[<-|[]]]]; lia.
  - now left.
  - lia.
  - specialize (Hm 0 ltac:(lia)). revert Hm. vm_compute in Hj.
    destruct Hj as [<-|[<-|[<-|[]]]]; vm_compute; intro Q; apply Q; reflexivity.
Qed.
(** All corners around an inside target may be land although the file has data elsewhere:
    then nothing at all is kept. *)
Theorem C76_all_corners_land_refuted :
  ~ (forall simplices find n wet targets,
       (forall t, In t targets -> exists i, find t = Some i /\ i < length simplices) ->
       targets <> [] -> (exists j, j < n /\ wet j = true) ->
       roms_select simplices find n wet targets <> []).
Proof.
  intro H.
  apply (H [[0; 1; 2]; [1; 2; 3]] (fun _ => Some 0) 4 (fun j => Nat.eqb j 3) [(qz 0, qz 0)]).
  - intros t _. exists 0. split; [reflexivity|cbn; lia].
  - discriminate.
  - exists 3. split; [lia|reflexivity].
  - vm_compute. reflexivity.
Qed.
(** A later file with another mask is read at the points of the first file. *)
Theorem C76_later_mask_refuted :
  ~ (forall simplices find n targets vars1 vars2 name l1 l2,
       generic_select simplices find n vars1 targets = inl l1 ->
       generic_select simplices find n vars2 targets = inl l2 ->
       gcalls simplices find n targets None [(vars1, name, 0); (vars2, name, 0)] = Some l2).
Proof.
  intro H.
  specialize (H [[0; 1; 2]] (fun _ => Some 0) 3 [(qz 0, qz 0)] [full "t" [s1; s1; None]] [full "t" [s1; None; s1]]
                "t"%string [0; 1] [0; 2] eq_refl eq_refl).
  vm_compute in H. discriminate H.
Qed.
(** The assertion about the shapes of the coordinate arrays never fails: a file with
    latitudes on an axis and longitudes on the whole grid is meshed all the same. *)
Theorem C76_mixed_grid_refuted :
  (forall la lo, exists b, latlon_meshed la lo = inl b) /\ latlon_meshed 1 2 = inl true.
Proof.
  split; [|reflexivity]. intros la lo. unfold latlon_meshed. rewrite Bool.eqb_reflx. now eexists.
Qed.

(** ** A worked case *)
Example ncom_case :
  ncom_mapping brute 4 line4 [full "X_Index" [None; None; None; None]; full "Salinity" [s1; s1; s1; None]]
    [(qz 0, qq 11 10); (qz 0, qz 3)] = inl [1; 2].
Proof. vm_compute. reflexivity. Qed.
Example rectangle_case : rectangle 4 [5; 10; 7] = inl ((1, 3), (1, 4)).
Proof. reflexivity. Qed.
Example subset_case :
  subset_nodes [[0; 1; 2]; [1; 2; 3]] (fun t => if Qcltb (lat t) (qz 1) then Some 0 else None) 4
    [(qz 0, qz 0); (qz 0, qz 0)] = [0; 1; 2].
Proof. vm_compute. reflexivity. Qed.
Example generic_case :
  generic_interpolate [[0; 1; 2]; [1; 2; 3]] (fun _ => Some 1) 4 [(qz 0, qz 0)] None
    [full "t" [s1; s1; None; s1]] "t" 0 = (Some [1; 3], inl [s1; s1]).
Proof. vm_compute. reflexivity. Qed.
Example name_case : nc_var_name [("a", None); ("b", Some "sst"); ("c", Some "sst")]%string "sst" = inl "b"%string.
Proof. reflexivity. Qed.

Print Assumptions C76_ncom_nodes.
Print Assumptions C76_ncom_nearest.
Print Assumptions C76_ncom_margin.
Print Assumptions C76_ncom_outcome.
Print Assumptions C76_ncom_failures.
Print Assumptions C76_ncom_variable.
Print Assumptions C76_unravel.
Print Assumptions C76_subset.
Print Assumptions C76_subset_sorted.
Print Assumptions C76_rectangle.
Print Assumptions C76_generic_select.
Print Assumptions C76_roms_select.
Print Assumptions C76_generic_mask.
Print Assumptions C76_chosen_once.
Print Assumptions C76_values.
Print Assumptions C76_standard_name.
Print Assumptions C76_standard_name_missing.
Print Assumptions C76_other_variable_masked_refuted.
Print Assumptions C76_unmasked_file_refuted.
Print Assumptions C76_outside_target_refuted.
Print Assumptions C76_all_corners_land_refuted.
Print Assumptions C76_later_mask_refuted.
Print Assumptions C76_mixed_grid_refuted.
