(** C48 column operations. *)
From Coq Require Import Reals List Lia Lra Arith Bool String.
From Verif Require Import Column_Model.
Import ListNotations.
Open Scope list_scope.
Open Scope R_scope.

(** ** Loops as lists of writes *)

Lemma for_loop_fold : forall S n (body : nat -> S -> S) s,
  for_loop n body s = fold_left (fun s i => body i s) (seq 0 n) s.
Proof. reflexivity. Qed.

Lemma fold_flat : forall S A B (upd : S -> B -> S) (g : A -> list B) l s,
  fold_left (fun s a => fold_left upd (g a) s) l s
  = fold_left upd (flat_map g l) s.
Proof.
  intros S A B upd g l. induction l as [|a l IH]; intro s; [reflexivity|].
  cbn [fold_left flat_map]. rewrite IH, fold_left_app. reflexivity.
Qed.

Lemma fold_map : forall S A B (upd : S -> B -> S) (g : A -> B) l s,
  fold_left (fun s a => upd s (g a)) l s = fold_left upd (map g l) s.
Proof.
  intros S A B upd g l. induction l as [|a l IH]; intro s; [reflexivity|].
  cbn [fold_left map]. apply IH.
Qed.

Lemma fold_ext : forall S A (f g : S -> A -> S) l s,
  (forall s a, f s a = g s a) -> fold_left f l s = fold_left g l s.
Proof.
  intros S A f g l. induction l as [|a l IH]; intros s H; [reflexivity|].
  cbn [fold_left]. rewrite H. apply IH, H.
Qed.

Definition bput (b : buffer) (w : nat * R) : buffer := store b (fst w) (snd w).

Definition dput (x : data) (w : (nat * nat) * R) : data :=
  fun n c => if (Nat.eqb n (fst (fst w)) && Nat.eqb c (snd (fst w)))%bool
             then snd w else x n c.

Lemma bput_all : forall l b p v,
  (forall v', In (p, v') l -> v' = v) -> (exists v', In (p, v') l) ->
  fold_left bput l b p = v.
Proof.
  intro l. induction l as [|w l IH] using rev_ind; intros b p v H [v' Hin].
  - destruct Hin.
  - rewrite fold_left_app. cbn [fold_left]. unfold bput at 1, store.
    destruct w as [q x]. cbn [fst snd]. destruct (Nat.eqb_spec p q) as [E|E].
    + subst q. apply H, in_or_app. right. now left.
    + apply IH.
      * intros v'' Hv. apply H, in_or_app. now left.
      * apply in_app_or in Hin as [Hin|[Hin|[]]]; [now exists v'|].
        injection Hin as -> _. now elim E.
Qed.

Lemma dput_all : forall l x n c v,
  (forall v', In ((n, c), v') l -> v' = v) -> (exists v', In ((n, c), v') l) ->
  fold_left dput l x n c = v.
Proof.
  intro l. induction l as [|w l IH] using rev_ind; intros x n c v H [v' Hin].
  - destruct Hin.
  - rewrite fold_left_app. cbn [fold_left]. unfold dput at 1.
    destruct w as [[m d] y]. cbn [fst snd].
    destruct (Nat.eqb_spec n m) as [E|E];
      [destruct (Nat.eqb_spec c d) as [E'|E']|]; cbn [andb].
    + subst m d. apply H, in_or_app. right. now left.
    + apply IH.
      * intros v'' Hv. apply H, in_or_app. now left.
      * apply in_app_or in Hin as [Hin|[Hin|[]]]; [now exists v'|].
        injection Hin as -> -> _. now elim E'.
    + apply IH.
      * intros v'' Hv. apply H, in_or_app. now left.
      * apply in_app_or in Hin as [Hin|[Hin|[]]]; [now exists v'|].
        injection Hin as -> _ _. now elim E.
Qed.

Lemma dput_none : forall l x n c,
  (forall v, ~ In ((n, c), v) l) -> fold_left dput l x n c = x n c.
Proof.
  intro l. induction l as [|w l IH] using rev_ind; intros x n c H; [reflexivity|].
  rewrite fold_left_app. cbn [fold_left]. unfold dput at 1.
  destruct w as [[m d] y]. cbn [fst snd].
  destruct (Nat.eqb_spec n m) as [E|E];
    [destruct (Nat.eqb_spec c d) as [E'|E']|]; cbn [andb].
  - subst m d. exfalso. apply (H y), in_or_app. right. now left.
  - apply IH. intros v Hv. apply (H v), in_or_app. now left.
  - apply IH. intros v Hv. apply (H v), in_or_app. now left.
Qed.

Lemma euclid : forall m a r a' r', (r < m)%nat -> (r' < m)%nat ->
  (m * a + r = m * a' + r')%nat -> a = a' /\ r = r'.
Proof.
  intros m a r a' r' H H' E. apply (Nat.div_mod_unique m a a' r r'); assumption.
Qed.

Lemma gather_at : forall dim nodes x d c, (c < dim)%nat ->
  gather dim nodes x (dim * d + c)%nat = x (nodes d) c.
Proof.
  intros dim nodes x d c H. unfold gather.
  assert (Hd : dim <> 0%nat) by lia.
  rewrite (Nat.mul_comm dim d), Nat.div_add_l by exact Hd.
  rewrite Nat.div_small by exact H. rewrite Nat.add_0_r.
  rewrite Nat.add_comm, Nat.mod_add by exact Hd.
  rewrite Nat.mod_small by exact H. reflexivity.
Qed.

Lemma mask_at : forall nh nv b d, (d < nh)%nat ->
  idx_at (facet_mask nh nv b) d = (d * nv + (if b then 0 else 1))%nat.
Proof.
  intros nh nv b d H. unfold idx_at, facet_mask.
  set (f := fun d => (d * nv + (if b then 0 else 1))%nat).
  rewrite nth_indep with (d' := f 0%nat) by (rewrite map_length, seq_length; exact H).
  rewrite (map_nth f), seq_nth by exact H. reflexivity.
Qed.

Lemma mask_length : forall nh nv b, List.length (facet_mask nh nv b) = nh.
Proof. intros. unfold facet_mask. now rewrite map_length, seq_length. Qed.

(** Three nested loops of writes. *)
Lemma expand_kernel_writes : forall nodes dim2 dim3 nv idx f b,
  expand_kernel nodes dim2 dim3 nv idx f b
  = fold_left bput
      (flat_map (fun d => flat_map (fun c => map (fun e =>
         ((dim3 * (idx_at idx d + e) + c)%nat, f (dim2 * d + c)%nat)) (seq 0 nv))
         (seq 0 dim2)) (seq 0 nodes)) b.
Proof.
  intros. unfold expand_kernel, for_loop.
  rewrite <- fold_flat. apply fold_ext. intros s d.
  rewrite <- fold_flat. apply fold_ext. intros s' c.
  rewrite <- fold_map. apply fold_ext. intros s'' e. reflexivity.
Qed.

Lemma expand_kernel_at : forall nh dim2 dim3 nv f b d c e,
  (dim2 <= dim3)%nat -> (d < nh)%nat -> (c < dim2)%nat -> (e < nv)%nat ->
  expand_kernel nh dim2 dim3 nv (facet_mask nh nv true) f b
    (dim3 * (d * nv + e) + c)%nat = f (dim2 * d + c)%nat.
Proof.
  intros nh dim2 dim3 nv f b d c e Hdim Hd Hc He.
  rewrite expand_kernel_writes. apply bput_all.
  - intros v H.
    apply in_flat_map in H as [d' [Hd' H]]. apply in_seq in Hd'.
    apply in_flat_map in H as [c' [Hc' H]]. apply in_seq in Hc'.
    apply in_map_iff in H as [e' [E He']]. apply in_seq in He'.
    injection E as E1 E2. rewrite mask_at in E1 by lia. cbn in Hd', Hc', He'.
    apply euclid in E1 as [E1 E3]; [|lia|lia]. subst c'.
    rewrite Nat.add_0_r, !(Nat.mul_comm _ nv) in E1.
    apply euclid in E1 as [-> _]; [|lia|lia]. now symmetry.
  - exists (f (dim2 * d + c)%nat).
    apply in_flat_map. exists d. split; [apply in_seq; lia|].
    apply in_flat_map. exists c. split; [apply in_seq; lia|].
    apply in_map_iff. exists e. split; [|apply in_seq; lia].
    rewrite mask_at by exact Hd. rewrite Nat.add_0_r. reflexivity.
Qed.

Lemma kernel2_at : forall nh dim2 (val : nat -> nat -> R) b d c,
  (d < nh)%nat -> (c < dim2)%nat ->
  for_loop nh (fun d => for_loop dim2 (fun c func =>
    store func (dim2 * d + c) (val d c))) b (dim2 * d + c)%nat = val d c.
Proof.
  intros nh dim2 val b d c Hd Hc.
  assert (E : for_loop nh (fun d => for_loop dim2 (fun c func =>
                store func (dim2 * d + c) (val d c))) b
              = fold_left bput (flat_map (fun d => map (fun c =>
                  ((dim2 * d + c)%nat, val d c)) (seq 0 dim2)) (seq 0 nh)) b).
  { unfold for_loop. rewrite <- fold_flat. apply fold_ext. intros s d'.
    rewrite <- fold_map. apply fold_ext. intros s' c'. reflexivity. }
  rewrite E. apply bput_all.
  - intros v H.
    apply in_flat_map in H as [d' [Hd' H]]. apply in_seq in Hd'.
    apply in_map_iff in H as [c' [E' Hc']]. apply in_seq in Hc'.
    injection E' as E1 E2. apply euclid in E1 as [-> ->]; [|lia|lia]. now symmetry.
  - exists (val d c). apply in_flat_map. exists d. split; [apply in_seq; lia|].
    apply in_map_iff. exists c. split; [reflexivity|apply in_seq; lia].
Qed.

Definition cell_writes (dim arity : nat) (nodes : nat -> nat) (b : buffer)
  : list ((nat * nat) * R) :=
  flat_map (fun j => map (fun c => ((nodes j, c), b (dim * j + c)%nat)) (seq 0 dim))
    (seq 0 arity).

Lemma scatter_writes : forall dim arity nodes b x,
  scatter dim arity nodes b x = fold_left dput (cell_writes dim arity nodes b) x.
Proof.
  intros. unfold scatter, for_loop, cell_writes.
  rewrite <- fold_flat. apply fold_ext. intros s j.
  rewrite <- fold_map. apply fold_ext. intros s' c. reflexivity.
Qed.

Lemma in_cell_writes : forall dim arity nodes b n c v,
  In ((n, c), v) (cell_writes dim arity nodes b) <->
  exists j, (j < arity)%nat /\ (c < dim)%nat /\ n = nodes j /\ v = b (dim * j + c)%nat.
Proof.
  intros. unfold cell_writes. rewrite in_flat_map. split.
  - intros [j [Hj H]]. apply in_seq in Hj. apply in_map_iff in H as [c' [E Hc]].
    apply in_seq in Hc. injection E as <- <- <-. exists j. repeat split; lia.
  - intros [j [Hj [Hc [-> ->]]]]. exists j. split; [apply in_seq; lia|].
    apply in_map_iff. exists c. split; [reflexivity|apply in_seq; lia].
Qed.

Section Proofs.
Variables (cells n_layers nh nv dim2 dim3 : nat).
Variable map2 : nat -> nat -> nat.
Variable map3 : nat -> nat -> nat -> nat.
Variable junk : buffer.

Notation expand := (expand cells n_layers nh nv dim2 dim3 map2 map3 junk).
Notation extract := (extract cells n_layers nh nv dim2 dim3 map2 map3 junk).

(** A 3D node lies above one 2D node: what an extruded mesh guarantees for every
    continuous or discontinuous function space. *)
Definition extruded : Prop :=
  forall c c' k k' d d' e e',
    (c < cells)%nat -> (c' < cells)%nat -> (k < n_layers)%nat -> (k' < n_layers)%nat ->
    (d < nh)%nat -> (d' < nh)%nat -> (e < nv)%nat -> (e' < nv)%nat ->
    map3 c k (d * nv + e) = map3 c' k' (d' * nv + e') -> map2 c d = map2 c' d'.

Lemma in_visits : forall dm c k,
  In (c, k) (visits cells n_layers dm) <->
  (c < cells)%nat /\ In k (layers_of dm n_layers).
Proof.
  intros. unfold visits. rewrite in_flat_map. split.
  - intros [c' [Hc H]]. apply in_seq in Hc. apply in_map_iff in H as [k' [E Hk]].
    injection E as <- <-. split; [lia|exact Hk].
  - intros [Hc Hk]. exists c. split; [apply in_seq; lia|].
    apply in_map_iff. now exists k.
Qed.

(** Every node of the 3D field gets the value of the 2D node below it, in every
    layer: the field is vertically constant. *)
Theorem C48_expand : forall x2 x3 c k d e cc,
  extruded -> (dim2 <= dim3)%nat ->
  (c < cells)%nat -> (k < n_layers)%nat -> (d < nh)%nat -> (e < nv)%nat ->
  (cc < dim2)%nat ->
  expand x2 x3 (map3 c k (d * nv + e)%nat) cc = x2 (map2 c d) cc.
Proof.
  intros x2 x3 c k d e cc Hex Hdim Hc Hk Hd He Hcc. unfold Column_Model.expand.
  pose (g := fun ck : nat * nat => cell_writes dim3 (nh * nv) (map3 (fst ck) (snd ck))
    (expand_kernel nh dim2 dim3 nv (facet_mask nh nv true)
       (gather dim2 (map2 (fst ck)) x2) junk)).
  rewrite (fold_ext _ _ _ (fun x ck => fold_left dput (g ck) x))
    by (intros; unfold expand_cell; apply scatter_writes).
  rewrite fold_flat. apply dput_all.
  - intros v H. apply in_flat_map in H as [[c' k'] [Hv H]].
    apply in_visits in Hv as [Hc' Hk']. cbn [layers_of] in Hk'. apply in_seq in Hk'.
    unfold g in H. cbn [fst snd] in H.
    apply in_cell_writes in H as [j [Hj [_ [En Ev]]]].
    assert (Hnv : nv <> 0%nat) by lia.
    pose proof (Nat.div_mod_eq j nv) as Ej.
    pose proof (Nat.mod_upper_bound j nv Hnv) as Hm.
    assert (Hq : (j / nv < nh)%nat).
    { apply Nat.div_lt_upper_bound; [exact Hnv|]. lia. }
    set (q := (j / nv)%nat) in *. set (r := (j mod nv)%nat) in *.
    assert (Ej' : j = (q * nv + r)%nat) by lia.
    rewrite Ev, Ej', expand_kernel_at by assumption.
    rewrite gather_at by exact Hcc. f_equal.
    rewrite Ej' in En. symmetry in En.
    symmetry. apply (Hex c c' k k' d q e r); try assumption; try lia.
  - eexists. apply in_flat_map. exists (c, k). split.
    + apply in_visits. split; [exact Hc|]. cbn [layers_of]. apply in_seq. lia.
    + unfold g. cbn [fst snd]. apply in_cell_writes. exists (d * nv + e)%nat.
      split; [nia|]. split; [lia|]. split; reflexivity.
Qed.

(** The value the extractor reads in the 3D cell above a 2D cell. *)
Definition facet_value (f : facet) (x3 : data) (c k d cc : nat) : R :=
  match f with
  | Bottom => x3 (map3 c k (d * nv)%nat) cc
  | Top => x3 (map3 c k (d * nv + 1)%nat) cc
  | Average => 0.5 * (x3 (map3 c k (d * nv)%nat) cc + x3 (map3 c k (d * nv + 1)%nat) cc)
  end.

Definition layer_of (dm : domain) : nat :=
  match dm with ON_TOP => (n_layers - 1)%nat | _ => 0%nat end.

Lemma extract_cell_buffer : forall f x3 ck d cc,
  (dim2 <= dim3)%nat -> (d < nh)%nat -> (cc < dim2)%nat ->
  (match f with
   | Average => average_kernel nh dim2 dim3 (extract_nodes nh nv f)
                  (gather dim3 (map3 (fst ck) (snd ck)) x3) junk
   | _ => extract_kernel nh dim2 dim3 (extract_nodes nh nv f)
                  (gather dim3 (map3 (fst ck) (snd ck)) x3) junk
   end) (dim2 * d + cc)%nat
  = facet_value f x3 (fst ck) (snd ck) d cc.
Proof.
  intros f x3 ck d cc Hdim Hd Hcc.
  destruct f; cbn [extract_nodes facet_value].
  - unfold extract_kernel.
    rewrite (kernel2_at nh dim2 (fun d c => gather dim3 (map3 (fst ck) (snd ck)) x3
      (dim3 * idx_at (facet_mask nh nv false) d + c)%nat)) by assumption.
    rewrite mask_at by exact Hd. apply gather_at. lia.
  - unfold extract_kernel.
    rewrite (kernel2_at nh dim2 (fun d c => gather dim3 (map3 (fst ck) (snd ck)) x3
      (dim3 * idx_at (facet_mask nh nv true) d + c)%nat)) by assumption.
    rewrite mask_at by exact Hd. rewrite Nat.add_0_r. apply gather_at. lia.
  - unfold average_kernel.
    rewrite (kernel2_at nh dim2 (fun d c => 0.5 *
      (gather dim3 (map3 (fst ck) (snd ck)) x3
         (dim3 * idx_at (facet_mask nh nv true ++ facet_mask nh nv false) d + c)%nat
       + gather dim3 (map3 (fst ck) (snd ck)) x3
         (dim3 * idx_at (facet_mask nh nv true ++ facet_mask nh nv false) (d + nh) + c)%nat)))
      by assumption.
    assert (E1 : idx_at (facet_mask nh nv true ++ facet_mask nh nv false) d = (d * nv)%nat).
    { unfold idx_at. rewrite app_nth1 by (rewrite mask_length; exact Hd).
      change (idx_at (facet_mask nh nv true) d = (d * nv)%nat).
      rewrite mask_at by exact Hd. lia. }
    assert (E2 : idx_at (facet_mask nh nv true ++ facet_mask nh nv false) (d + nh)
                 = (d * nv + 1)%nat).
    { unfold idx_at. rewrite app_nth2 by (rewrite mask_length; lia).
      rewrite mask_length. replace (d + nh - nh)%nat with d by lia.
      change (idx_at (facet_mask nh nv false) d = (d * nv + 1)%nat).
      now rewrite mask_at by exact Hd. }
    rewrite E1, E2, !gather_at by lia. reflexivity.
Qed.

(** General form: if all cells sharing a 2D node agree on the value, that value
    is extracted. *)
Lemma extract_at : forall dm f x3 x2 c d cc v,
  dm <> ALL -> (dim2 <= dim3)%nat ->
  (c < cells)%nat -> (d < nh)%nat -> (cc < dim2)%nat ->
  (forall c' d', (c' < cells)%nat -> (d' < nh)%nat -> map2 c' d' = map2 c d ->
     facet_value f x3 c' (layer_of dm) d' cc = v) ->
  extract dm f x3 x2 (map2 c d) cc = v.
Proof.
  intros dm f x3 x2 c d cc v Hdm Hdim Hc Hd Hcc H. unfold Column_Model.extract.
  assert (L : layers_of dm n_layers = [layer_of dm]) by (destruct dm; [now elim Hdm| |]; reflexivity).
  pose (buf := fun ck : nat * nat => match f with
   | Average => average_kernel nh dim2 dim3 (extract_nodes nh nv f)
                  (gather dim3 (map3 (fst ck) (snd ck)) x3) junk
   | _ => extract_kernel nh dim2 dim3 (extract_nodes nh nv f)
                  (gather dim3 (map3 (fst ck) (snd ck)) x3) junk
   end).
  pose (g := fun ck : nat * nat => cell_writes dim2 nh (map2 (fst ck)) (buf ck)).
  rewrite (fold_ext _ _ _ (fun x ck => fold_left dput (g ck) x))
    by (intros; unfold extract_cell; apply scatter_writes).
  rewrite fold_flat. apply dput_all.
  - intros v' Hin. apply in_flat_map in Hin as [[c' k'] [Hv Hin]].
    apply in_visits in Hv as [Hc' Hk']. rewrite L in Hk'. destruct Hk' as [<-|[]].
    unfold g in Hin. cbn [fst snd] in Hin.
    apply in_cell_writes in Hin as [d' [Hd' [_ [En Ev]]]].
    rewrite Ev. unfold buf.
    rewrite (extract_cell_buffer f x3 (c', layer_of dm) d' cc) by assumption.
    cbn [fst snd]. apply H; [exact Hc'|exact Hd'|]. now symmetry.
  - eexists. apply in_flat_map. exists (c, layer_of dm). split.
    + apply in_visits. split; [exact Hc|]. rewrite L. now left.
    + unfold g. cbn [fst snd]. apply in_cell_writes. exists d.
      split; [exact Hd|]. split; [exact Hcc|]. split; reflexivity.
Qed.

(** Extraction reads the documented facet of the documented layer (the surface
    or the bottom elements). Cells that share a 2D node share the nodes above
    it. *)
Theorem C48_extract : forall dm f x3 x2 c d cc,
  dm <> ALL -> (dim2 <= dim3)%nat ->
  (forall c c' d d' e, (c < cells)%nat -> (c' < cells)%nat -> (d < nh)%nat ->
     (d' < nh)%nat -> (e < 2)%nat -> map2 c' d' = map2 c d ->
     map3 c' (layer_of dm) (d' * nv + e) = map3 c (layer_of dm) (d * nv + e)) ->
  (c < cells)%nat -> (d < nh)%nat -> (cc < dim2)%nat ->
  extract dm f x3 x2 (map2 c d) cc
  = match f with
    | Bottom => x3 (map3 c (layer_of dm) (d * nv)%nat) cc
    | Top => x3 (map3 c (layer_of dm) (d * nv + 1)%nat) cc
    | Average => (x3 (map3 c (layer_of dm) (d * nv)%nat) cc
                  + x3 (map3 c (layer_of dm) (d * nv + 1)%nat) cc) / 2
    end.
Proof.
  intros dm f x3 x2 c d cc Hdm Hdim Hsh Hc Hd Hcc.
  apply extract_at; try assumption. intros c' d' Hc' Hd' E.
  pose proof (Hsh c c' d d' 0%nat Hc Hc' Hd Hd' ltac:(lia) E) as E0.
  pose proof (Hsh c c' d d' 1%nat Hc Hc' Hd Hd' ltac:(lia) E) as E1.
  rewrite !Nat.add_0_r in E0.
  destruct f; cbn [facet_value]; rewrite ?E0, ?E1; try reflexivity. lra.
Qed.

(** Expanding and extracting again, at the surface, the bottom or averaged,
    returns the 2D field: on every mesh, for every vertical element with at
    least two nodes. *)
Theorem C48_round_trip : forall dm f x2 x3 y2 c d cc,
  dm <> ALL -> extruded -> (dim2 <= dim3)%nat -> (2 <= nv)%nat ->
  (0 < n_layers)%nat ->
  (c < cells)%nat -> (d < nh)%nat -> (cc < dim2)%nat ->
  extract dm f (expand x2 x3) y2 (map2 c d) cc = x2 (map2 c d) cc.
Proof.
  intros dm f x2 x3 y2 c d cc Hdm Hex Hdim Hnv Hl Hc Hd Hcc.
  apply extract_at; try assumption. intros c' d' Hc' Hd' E.
  assert (HK : (layer_of dm < n_layers)%nat) by (destruct dm; cbn [layer_of]; lia).
  assert (X : forall e, (e < nv)%nat ->
     expand x2 x3 (map3 c' (layer_of dm) (d' * nv + e)%nat) cc = x2 (map2 c d) cc).
  { intros e He. rewrite C48_expand by assumption. now rewrite E. }
  pose proof (X 0%nat ltac:(lia)) as X0. pose proof (X 1%nat ltac:(lia)) as X1.
  rewrite Nat.add_0_r in X0.
  destruct f; cbn [facet_value]; rewrite ?X0, ?X1; try reflexivity. lra.
Qed.

(** Nodes that are not on the 2D mesh are left alone. *)
Theorem C48_extract_frame : forall dm f x3 x2 n cc,
  (forall c d, (c < cells)%nat -> (d < nh)%nat -> map2 c d <> n) ->
  extract dm f x3 x2 n cc = x2 n cc.
Proof.
  intros dm f x3 x2 n cc H. unfold Column_Model.extract.
  pose (buf := fun ck : nat * nat => match f with
   | Average => average_kernel nh dim2 dim3 (extract_nodes nh nv f)
                  (gather dim3 (map3 (fst ck) (snd ck)) x3) junk
   | _ => extract_kernel nh dim2 dim3 (extract_nodes nh nv f)
                  (gather dim3 (map3 (fst ck) (snd ck)) x3) junk
   end).
  pose (g := fun ck : nat * nat => cell_writes dim2 nh (map2 (fst ck)) (buf ck)).
  rewrite (fold_ext _ _ _ (fun x ck => fold_left dput (g ck) x))
    by (intros; unfold extract_cell; apply scatter_writes).
  rewrite fold_flat. apply dput_none. intros v Hin.
  apply in_flat_map in Hin as [[c' k'] [Hv Hin]].
  apply in_visits in Hv as [Hc' _]. unfold g in Hin. cbn [fst snd] in Hin.
  apply in_cell_writes in Hin as [d' [Hd' [_ [En _]]]].
  apply (H c' d' Hc' Hd'). now symmetry.
Qed.
End Proofs.

(** A concrete mesh: one cell, two layers, discontinuous linear elements with
    three horizontal nodes. *)
Example C48_example :
  let map2 := fun c d => (3 * c + d)%nat in
  let map3 := fun c k j => (6 * (2 * c + k) + j)%nat in
  extruded 1 2 3 2 map2 map3
  /\ extract 1 2 3 2 1 1 map2 map3 (fun _ => 7) ON_TOP Top
       (expand 1 2 3 2 1 1 map2 map3 (fun _ => 9) (fun n _ => INR n) (fun _ _ => 5))
       (fun _ _ => 0) 2%nat 0%nat = 2.
Proof.
  intros map2 map3.
  assert (X : extruded 1 2 3 2 map2 map3).
  { unfold extruded, map2, map3. intros c c' k k' d d' e e' Hc Hc' Hk Hk' Hd Hd' He He' E.
    replace c with 0%nat in * by lia. replace c' with 0%nat in * by lia. lia. }
  split; [exact X|].
  unfold expand, extract, expand_cell, extract_cell. cbn -[INR Nat.div Nat.modulo].
  unfold dput, gather. cbn. lra.
Qed.

(** Finding: with a single vertical node (piecewise constant in the vertical)
    the top facet is read from the wrong node. *)
Theorem C48_single_vertical_node_refuted :
  ~ (forall cells n_layers nh nv map2 map3 junk f x2 x3 y2 c d,
       extruded cells n_layers nh nv map2 map3 -> (0 < nv)%nat -> (0 < n_layers)%nat ->
       (c < cells)%nat -> (d < nh)%nat ->
       extract cells n_layers nh nv 1 1 map2 map3 junk ON_TOP f
         (expand cells n_layers nh nv 1 1 map2 map3 junk x2 x3) y2 (map2 c d) 0%nat
       = x2 (map2 c d) 0%nat).
Proof.
  intro H.
  pose (map2 := fun c d : nat => d). pose (map3 := fun c k j : nat => j).
  assert (X : extruded 1 1 2 1 map2 map3).
  { unfold extruded, map2, map3. intros. lia. }
  specialize (H 1%nat 1%nat 2%nat 1%nat map2 map3 (fun _ => 0) Top (fun n _ => INR n)
                (fun _ _ => 0) (fun _ _ => 0) 0%nat 0%nat X).
  specialize (H ltac:(lia) ltac:(lia) ltac:(lia) ltac:(lia)).
  unfold expand, extract, expand_cell, extract_cell in H.
  cbn -[INR] in H. cbn in H. lra.
Qed.

(** The extractor's arguments: three facets, two boundaries; the facet defaults
    to the boundary. *)
Theorem C48_extractor_arguments : forall boundary elem_facet dm f,
  extractor boundary elem_facet = inl (dm, f) <->
  ((boundary = "top"%string /\ dm = ON_TOP)
   \/ (boundary = "bottom"%string /\ dm = ON_BOTTOM))
  /\ (let name := match elem_facet with None => boundary | Some s => s end in
      (name = "top"%string /\ f = Top) \/ (name = "bottom"%string /\ f = Bottom)
      \/ (name = "average"%string /\ f = Average)).
Proof.
  intros boundary elem_facet dm f. unfold extractor, facet_of.
  set (name := match elem_facet with None => boundary | Some s => s end).
  destruct (String.eqb_spec name "top") as [E|N1];
    [|destruct (String.eqb_spec name "bottom") as [E|N2];
      [|destruct (String.eqb_spec name "average") as [E|N3]]].
  all: destruct (String.eqb_spec boundary "top") as [B|B1];
    [|destruct (String.eqb_spec boundary "bottom") as [B|B2]].
  all: try rewrite E; try rewrite B; split;
    [ intro H; try discriminate; injection H as <- <-; cbv zeta; auto 6
    | intros [[[Hb Hd]|[Hb Hd]] Hf]; cbv zeta in Hf;
      destruct Hf as [[Hf1 Hf2]|[[Hf1 Hf2]|[Hf1 Hf2]]];
      subst; try discriminate; try congruence; reflexivity ].
Qed.

(** ** Vertical integral *)

(** Integrating upwards from zero: the value at the top of layer k is the
    integral over the layers up to k. *)
Theorem C48_integral_up : forall n s y,
  (forall k, (k < n)%nat -> lhs_up y k = rhs_up 0 s k) ->
  forall k, (k < n)%nat -> y k = layer_sum s (S k).
Proof.
  intros n s y H k. induction k as [|k IH]; intro Hk.
  - specialize (H 0%nat Hk). unfold lhs_up, rhs_up in H. cbn [layer_sum] in *. lra.
  - specialize (H (S k) Hk). specialize (IH ltac:(lia)).
    unfold lhs_up, rhs_up in H. cbn [layer_sum] in *. lra.
Qed.

(** Integrating downwards from zero: the value at the bottom of layer k is minus
    the integral over the layers from k to the surface. *)
Theorem C48_integral_down : forall n s y,
  (forall k, (k < n)%nat -> lhs_down n y k = rhs_down n 0 s k) ->
  forall k, (k < n)%nat -> y k = - (layer_sum s n - layer_sum s k).
Proof.
  intros n s y H.
  assert (A : forall m k, (n - k = S m)%nat -> y k = - (layer_sum s n - layer_sum s k)).
  { induction m as [|m IH]; intros k Hk.
    - specialize (H k ltac:(lia)). unfold lhs_down, rhs_down in H.
      assert (E : Nat.eqb (S k) n = true) by (apply Nat.eqb_eq; lia).
      rewrite E in H. replace n with (S k) by lia. cbn [layer_sum]. lra.
    - specialize (H k ltac:(lia)). unfold lhs_down, rhs_down in H.
      assert (E : Nat.eqb (S k) n = false) by (apply Nat.eqb_neq; lia).
      rewrite E in H. rewrite (IH (S k)) in H by lia. cbn [layer_sum] in H. lra. }
  intros k Hk. apply (A (n - k - 1)%nat). lia.
Qed.

(** The two directions differ by the integral over the whole column. *)
Theorem C48_integral_directions : forall n s yu yd,
  (forall k, (k < n)%nat -> lhs_up yu k = rhs_up 0 s k) ->
  (forall k, (k < n)%nat -> lhs_down n yd k = rhs_down n 0 s k) ->
  forall k, (S k < n)%nat -> yu k - yd (S k) = layer_sum s n.
Proof.
  intros n s yu yd Hu Hd k Hk.
  rewrite (C48_integral_up n s yu Hu k) by lia.
  rewrite (C48_integral_down n s yd Hd (S k)) by lia. lra.
Qed.

(** The depth average of a vertically constant field is that constant: with the
    source v * h_k / H in layer k, where the heights h_k add up to H, the value
    at the surface is v. *)
Theorem C48_average_of_constant : forall n h v y, (0 < n)%nat ->
  layer_sum h n <> 0 ->
  (forall k, (k < n)%nat ->
     lhs_up y k = rhs_up 0 (fun k => v * h k / layer_sum h n) k) ->
  y (n - 1)%nat = v.
Proof.
  intros n h v y Hn HH H.
  rewrite (C48_integral_up n _ y H) by lia.
  replace (S (n - 1)) with n by lia.
  assert (E : forall m H0, layer_sum (fun k => v * h k / H0) m = v * layer_sum h m / H0).
  { induction m as [|m IH]; intro H0; cbn [layer_sum]; [unfold Rdiv; ring|].
    rewrite IH. unfold Rdiv. ring. }
  rewrite E. field. exact HH.
Qed.

(** The weak form has one solution at those facets. *)
Theorem C48_integral_unique : forall n bnd s y y',
  (forall k, (k < n)%nat -> lhs_up y k = rhs_up bnd s k) ->
  (forall k, (k < n)%nat -> lhs_up y' k = rhs_up bnd s k) ->
  forall k, (k < n)%nat -> y k = y' k.
Proof.
  intros n bnd s y y' H H' k. induction k as [|k IH]; intro Hk;
    specialize (H _ Hk); specialize (H' _ Hk); unfold lhs_up in *.
  - lra.
  - specialize (IH ltac:(lia)). lra.
Qed.

(** Finding: a non-zero boundary value enters with the wrong sign. The
    documented "value of the integral at the bottom boundary" would give
    bnd + s_0 at the top of the first layer; the form gives s_0 - bnd. *)
Theorem C48_boundary_value_refuted :
  ~ (forall n bnd s y, (0 < n)%nat ->
       (forall k, (k < n)%nat -> lhs_up y k = rhs_up bnd s k) ->
       y 0%nat = bnd + s 0%nat).
Proof.
  intro H. specialize (H 1%nat 1 (fun _ => 3) (fun _ => 2) ltac:(lia)).
  assert (A : forall k, (k < 1)%nat -> lhs_up (fun _ => 2) k = rhs_up 1 (fun _ => 3) k).
  { intros k Hk. replace k with 0%nat by lia. unfold lhs_up, rhs_up. lra. }
  specialize (H A). lra.
Qed.

Theorem C48_boundary_value_sign : forall n bnd s y, (0 < n)%nat ->
  (forall k, (k < n)%nat -> lhs_up y k = rhs_up bnd s k) ->
  forall k, (k < n)%nat -> y k = layer_sum s (S k) - bnd.
Proof.
  intros n bnd s y Hn H k. induction k as [|k IH]; intro Hk.
  - specialize (H 0%nat Hk). unfold lhs_up, rhs_up in H. cbn [layer_sum] in *. lra.
  - specialize (H (S k) Hk). specialize (IH ltac:(lia)).
    unfold lhs_up, rhs_up in H. cbn [layer_sum] in *. lra.
Qed.

Example C48_integral_example :
  let s := fun k => INR k + 1 in
  let y := fun k => layer_sum s (S k) in
  (forall k, (k < 3)%nat -> lhs_up y k = rhs_up 0 s k) /\ y 2%nat = 6.
Proof.
  intros s y. split.
  - intros k Hk. destruct k as [|[|[|k]]]; [| | |lia]; unfold lhs_up, rhs_up, y, s;
      cbn [layer_sum INR]; lra.
  - unfold y, s. cbn [layer_sum INR]. lra.
Qed.

Print Assumptions C48_round_trip.
Print Assumptions C48_integral_directions.
