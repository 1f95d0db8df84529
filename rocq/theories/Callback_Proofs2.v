From Coq Require Import String Ascii.
From Verif Require Import Num Exporter_Model Exporter_Proofs Callback_Model Callback_Spec.
Open Scope string_scope.
Open Scope Z_scope.

(** *** lists *)
Lemma set_nth_length {A} (l : list A) i x : length (set_nth l i x) = length l.
Proof. revert i. induction l as [|a l IH]; intros [|i]; simpl; auto. Qed.
Lemma set_nth_firstn {A} (l : list A) i x : (i < length l)%nat -> set_nth l i x = (firstn i l ++ x :: skipn (S i) l)%list.
Proof.
  revert i. induction l as [|a l IH]; intros [|i] H; simpl in *; try lia; [reflexivity|].
  f_equal. apply IH. lia.
Qed.
Lemma set_nth_last {A} (l : list A) z x : set_nth (l ++ [z])%list (length l) x = (l ++ [x])%list.
Proof. induction l as [|a l IH]; simpl; [reflexivity|now rewrite IH]. Qed.
Lemma map_put {B} (g : entry -> B) L p e : map g (put L p e) = (firstn p (map g L) ++ g e :: skipn (S p) (map g L))%list.
Proof. unfold put. rewrite map_app. cbn [map]. now rewrite firstn_map, skipn_map. Qed.

Lemma upd_same f n r : h5_upd f n r n = Some r.
Proof. unfold h5_upd. now rewrite String.eqb_refl. Qed.
Lemma upd_other f n r m : m <> n -> h5_upd f n r m = f m.
Proof. intros H. unfold h5_upd. destruct (String.eqb_spec m n); [congruence|reflexivity]. Qed.

(** *** creation *)
Lemma create_datasets_ok names f :
  NoDup names -> (forall d, In d names -> f d = None) ->
  exists f', create_datasets f names = (f', None) /\
    (forall d, In d names -> f' d = Some []) /\ (forall d, ~ In d names -> f' d = f d).
Proof.
  revert f. induction names as [|n names IH]; intros f ND H.
  - exists f. cbn. repeat split; tauto.
  - inversion ND; subst. cbn [create_datasets]. rewrite (H n) by now left.
    destruct (IH (h5_upd f n [])) as (f' & H1 & H2' & H3').
    + assumption.
    + intros d Hd. rewrite upd_other by (intros ->; contradiction). apply H. now right.
    + exists f'. split; [exact H1|]. split.
      * intros d [<-|Hd]; [|now apply H2']. rewrite H3' by assumption. apply upd_same.
      * intros d Hd. rewrite H3' by (intros X; apply Hd; now right). apply upd_other. intros ->. apply Hd. now left.
Qed.

Lemma create_holds c : good_cfg c -> exists f, h5_create c = (f, None) /\ holds c f [].
Proof.
  intros [_ ND]. destruct (create_datasets_ok (dataset_names c) (fun _ => None) ND) as (f & H1 & H2 & _); [reflexivity|].
  exists f. split; [exact H1|]. split.
  - intros j d Hd. apply H2. unfold dataset_names. apply nth_error_In in Hd. destruct (hc_time c); [now right|exact Hd].
  - intros Ht. apply H2. unfold dataset_names. rewrite Ht. now left.
Qed.

Lemma create_datasets_dup names f :
  ~ NoDup names -> snd (create_datasets f names) = Some EValue.
Proof.
  revert f. induction names as [|n names IH]; intros f H; [exfalso; apply H; constructor|].
  cbn [create_datasets]. destruct (f n); [reflexivity|].
  destruct (in_dec string_dec n names) as [Hin|Hin].
  - clear IH H. assert (G : forall g, g n <> None -> snd (create_datasets g names) = Some EValue).
    { clear -Hin. induction names as [|m names IH]; intros g Hg; [destruct Hin|]. cbn [create_datasets].
      destruct (g m) eqn:E; [reflexivity|]. destruct Hin as [->|Hin]; [congruence|].
      apply IH; [exact Hin|]. unfold h5_upd. destruct (String.eqb n m); congruence. }
    apply G. rewrite upd_same. discriminate.
  - apply IH. intros ND. apply H. now constructor.
Qed.

(** *** expansion *)
Lemma expand_vars_ok names f w :
  NoDup names -> (forall d, In d names -> f d <> None) ->
  exists f', expand_vars f names w = (f', None) /\
    (forall d rows, In d names -> f d = Some rows -> f' d = Some (rows ++ [zero_row w])%list) /\
    (forall d, ~ In d names -> f' d = f d).
Proof.
  revert f. induction names as [|n names IH]; intros f ND H.
  - exists f. cbn. repeat split; tauto.
  - inversion ND; subst. cbn [expand_vars]. unfold expand_array.
    destruct (f n) as [rows|] eqn:E; [|exfalso; apply (H n); [now left|exact E]].
    destruct (IH (h5_upd f n (rows ++ [zero_row w])%list)) as (f' & H1 & H2' & H3').
    + assumption.
    + intros d Hd. rewrite upd_other by (intros ->; contradiction). apply H. now right.
    + exists f'. split; [exact H1|]. split.
      * intros d r [<-|Hd] Hr; [|].
        -- rewrite H3' by assumption. rewrite upd_same. congruence.
        -- apply H2'; [exact Hd|]. rewrite upd_other by (intros ->; contradiction). exact Hr.
      * intros d Hd. rewrite H3' by (intros X; apply Hd; now right). apply upd_other. intros ->. apply Hd. now left.
Qed.

Definition width_of (c : h5cfg) (d : string) : nat :=
  if hc_time c && String.eqb d "time" then 1%nat else hc_width c.

Lemma expand_ok c f :
  NoDup (dataset_names c) -> (forall d, In d (dataset_names c) -> f d <> None) ->
  exists f', expand c f = (f', None) /\
    (forall d rows, In d (dataset_names c) -> f d = Some rows -> f' d = Some (rows ++ [zero_row (width_of c d)])%list).
Proof.
  intros ND H. unfold expand, dataset_names, width_of in *.
  destruct (hc_time c) eqn:T.
  - inversion ND as [|? ? N1 N2]; subst.
    destruct (expand_vars_ok (hc_vars c) f (hc_width c) N2) as (f1 & E1 & H1 & H1').
    { intros d Hd. apply H. now right. }
    rewrite E1. unfold expand_array. rewrite H1' by assumption.
    destruct (f "time") as [rows|] eqn:E; [|exfalso; apply (H "time"); [now left|exact E]].
    eexists. split; [reflexivity|]. intros d r [<-|Hd] Hr; cbn [andb].
    + rewrite String.eqb_refl. rewrite upd_same. congruence.
    + assert (d <> "time") by (intros ->; contradiction).
      destruct (String.eqb_spec d "time"); [congruence|]. rewrite upd_other by assumption. now apply H1.
  - destruct (expand_vars_ok (hc_vars c) f (hc_width c) ND H) as (f1 & E1 & H1 & H1').
    rewrite E1. exists f1. split; [reflexivity|]. intros d r Hd Hr. cbn [andb]. now apply H1.
Qed.

(** *** writing *)
Lemma norm_index_lt i n j : norm_index i n = Some j -> (j < n)%nat.
Proof.
  unfold norm_index. set (k := if i <? 0 then i + Z.of_nat n else i).
  destruct ((0 <=? k) && (k <? Z.of_nat n)) eqn:E; [|discriminate]. intros H. inversion H; subst.
  apply andb_true_iff in E. destruct E as [E1 E2]. apply Z.leb_le in E1. apply Z.ltb_lt in E2. lia.
Qed.

Lemma write_row_rect f n ix r d rows :
  f d = Some rows -> exists rows', fst (write_row f n ix r) d = Some rows' /\ length rows' = length rows.
Proof.
  intros H. unfold write_row. destruct (f n) as [rn|] eqn:E; [|cbn; eauto].
  destruct (norm_index ix (length rn)); [|cbn; eauto]. cbn [fst]. destruct (string_dec d n) as [->|N].
  - rewrite upd_same. eexists. split; [reflexivity|]. rewrite set_nth_length. congruence.
  - rewrite upd_other by exact N. eauto.
Qed.
Lemma write_vars_rect names f ix vals d rows :
  f d = Some rows -> exists rows', fst (write_vars f names ix vals) d = Some rows' /\ length rows' = length rows.
Proof.
  revert f vals rows. induction names as [|n names IH]; intros f vals rows H; cbn [write_vars]; [cbn; eauto|].
  destruct vals as [|[v|] vals]; [cbn; eauto| |cbn; eauto].
  destruct (write_row_rect f n ix v d rows H) as (r1 & H1 & H2).
  destruct (write_row f n ix v) as [f' [e|]]; cbn [fst] in *; [eauto|].
  destruct (IH f' vals r1 H1) as (r2 & H3 & H4). exists r2. split; [exact H3|congruence].
Qed.
Lemma h5_write_rect c f ix v t d rows :
  f d = Some rows -> exists rows', fst (h5_write c f ix v t) d = Some rows' /\ length rows' = length rows.
Proof.
  intros H. unfold h5_write.
  set (r1 := if hc_time c then _ else _).
  assert (K : exists rows', fst r1 d = Some rows' /\ length rows' = length rows).
  { unfold r1. destruct (hc_time c); [|cbn; eauto]. destruct t; [|cbn; eauto]. now apply write_row_rect. }
  destruct r1 as [f1 [e|]]; cbn [fst] in *; [exact K|].
  destruct K as (r & K1 & K2). destruct v as [|vals].
  - destruct (hc_vars c); cbn; eauto.
  - destruct (write_vars_rect (hc_vars c) f1 ix vals d r K1) as (r2 & H3 & H4). exists r2. split; [exact H3|congruence].
Qed.

Lemma names_in_vars c d : In d (hc_vars c) -> In d (dataset_names c).
Proof. unfold dataset_names. destruct (hc_time c); [now right|auto]. Qed.

Lemma nentries_rect c f n : good_cfg c -> rectangular c f n -> nentries c f = inl (Z.of_nat n).
Proof.
  intros [H _] R. unfold nentries. destruct (hc_vars c) as [|d r] eqn:E; [congruence|].
  destruct (R d) as (rows & H1 & H2); [apply names_in_vars; rewrite E; now left|]. now rewrite H1, H2.
Qed.

Lemma append_rect c f v t n : good_cfg c -> rectangular c f n -> rectangular c (fst (h5_append c f v t)) (S n).
Proof.
  intros G R. destruct (expand_ok c f) as (f1 & E1 & H1); [apply G| |].
  { intros d Hd. destruct (R d Hd) as (rows & -> & _). discriminate. }
  assert (R1 : rectangular c f1 (S n)).
  { intros d Hd. destruct (R d Hd) as (rows & Hr & Hl). exists (rows ++ [zero_row (width_of c d)])%list.
    split; [now apply H1|]. rewrite app_length. simpl. lia. }
  unfold h5_append. rewrite E1, (nentries_rect c f1 (S n) G R1).
  intros d Hd. destruct (R1 d Hd) as (rows & Hr & Hl).
  destruct (h5_write_rect c f1 (Z.of_nat (S n) - 1) v t d rows Hr) as (r2 & H2 & H3). exists r2. split; [exact H2|congruence].
Qed.

Lemma export_rect c f v t index n : good_cfg c -> rectangular c f n ->
  rectangular c (fst (diag_export c f v t index)) n \/ rectangular c (fst (diag_export c f v t index)) (S n).
Proof.
  intros G R. unfold diag_export. destruct index as [i|]; [|right; now apply append_rect].
  rewrite (nentries_rect c f n G R). destruct (Z.of_nat n <? i); [now left|].
  destruct (i =? Z.of_nat n); [right; now apply append_rect|]. left.
  intros d Hd. destruct (R d Hd) as (rows & Hr & Hl).
  destruct (h5_write_rect c f i v t d rows Hr) as (r2 & H2 & H3). exists r2. split; [exact H2|congruence].
Qed.

(** successful writes *)
Lemma write_vars_ok names f ix vs n j :
  NoDup names -> (forall d, In d names -> exists rows, f d = Some rows /\ length rows = n) ->
  norm_index ix n = Some j -> length vs = length names ->
  exists f', write_vars f names ix (map Some vs) = (f', None) /\
    (forall k d rows, nth_error names k = Some d -> f d = Some rows -> f' d = Some (set_nth rows j (nth k vs []))) /\
    (forall d, ~ In d names -> f' d = f d).
Proof.
  revert f vs. induction names as [|m names IH]; intros f vs ND H Hj Hl.
  - exists f. cbn. repeat split. intros k d rows Hk. now destruct k.
  - destruct vs as [|v vs]; [discriminate|]. inversion ND; subst. cbn [map write_vars].
    destruct (H m) as (rm & Hm & Lm); [now left|]. unfold write_row. rewrite Hm, Lm, Hj.
    destruct (IH (h5_upd f m (set_nth rm j v)) vs) as (f' & E & H4 & H5); auto.
    { intros d Hd. rewrite upd_other by (intros ->; contradiction). apply H. now right. }
    exists f'. split; [exact E|]. split.
    + intros [|k] d rows Hk Hr; cbn in Hk.
      * inversion Hk; subst. rewrite H5 by assumption. rewrite upd_same. cbn. congruence.
      * cbn [nth]. apply H4 with (1 := Hk). rewrite upd_other; [exact Hr|]. intros ->. apply nth_error_In in Hk. contradiction.
    + intros d Hd. rewrite H5 by (intros X; apply Hd; now right). apply upd_other. intros ->. apply Hd. now left.
Qed.

Lemma h5_write_ok c f ix e n j :
  good_cfg c -> rectangular c f n -> norm_index ix n = Some j -> complete c e ->
  exists f', h5_write c f ix (Tuple (map Some (e_vals e))) (Some (e_time e)) = (f', None) /\
    (forall k d rows, nth_error (hc_vars c) k = Some d -> f d = Some rows -> f' d = Some (set_nth rows j (nth k (e_vals e) []))) /\
    (forall rows, hc_time c = true -> f "time" = Some rows -> f' "time" = Some (set_nth rows j [e_time e])).
Proof.
  intros [_ ND] R Hj Hc. unfold h5_write, dataset_names in *.
  destruct (hc_time c) eqn:T.
  - inversion ND as [|? ? N1 N2]; subst.
    destruct (R "time") as (tr & Ht & Lt); [unfold dataset_names; rewrite T; now left|].
    unfold write_row at 1. rewrite Ht, Lt, Hj.
    destruct (write_vars_ok (hc_vars c) (h5_upd f "time" (set_nth tr j [e_time e])) ix (e_vals e) n j) as (f' & E & H4 & H5); auto.
    { intros d Hd. rewrite upd_other by (intros ->; contradiction). apply R. unfold dataset_names. rewrite T. now right. }
    exists f'. split; [exact E|]. split.
    + intros k d rows Hk Hr. apply (H4 k d rows Hk). rewrite upd_other; [exact Hr|]. intros ->. apply nth_error_In in Hk. contradiction.
    + intros rows _ Hr. rewrite H5 by assumption. rewrite upd_same. congruence.
  - destruct (write_vars_ok (hc_vars c) f ix (e_vals e) n j) as (f' & E & H4 & H5); auto.
    { intros d Hd. apply R. unfold dataset_names. now rewrite T. }
    exists f'. split; [exact E|]. split; [exact H4|]. congruence.
Qed.

Lemma holds_rect c f L : holds c f L -> rectangular c f (length L).
Proof.
  intros [H1 H2] d Hd. unfold dataset_names in Hd.
  assert (K : (hc_time c = true /\ d = "time") \/ In d (hc_vars c)).
  { destruct (hc_time c); [destruct Hd as [<-|Hd]; [now left|now right]|now right]. }
  destruct K as [[T ->]|K].
  - eexists. split; [now apply H2|]. now rewrite map_length.
  - apply In_nth_error in K. destruct K as [j Hj]. eexists. split; [exact (H1 j d Hj)|]. now rewrite map_length.
Qed.

Lemma put_append L e : put L (length L) e = (L ++ [e])%list.
Proof. unfold put. rewrite firstn_all. rewrite skipn_all2 by lia. reflexivity. Qed.

Lemma append_holds c f L e : good_cfg c -> complete c e -> holds c f L ->
  exists f', h5_append c f (Tuple (map Some (e_vals e))) (Some (e_time e)) = (f', None) /\ holds c f' (L ++ [e])%list.
Proof.
  intros G C H. pose proof (holds_rect c f L H) as R. destruct H as [Hv Ht].
  destruct (expand_ok c f) as (f1 & E1 & H1); [apply G| |].
  { intros d Hd. destruct (R d Hd) as (rows & -> & _). discriminate. }
  assert (R1 : rectangular c f1 (S (length L))).
  { intros d Hd. destruct (R d Hd) as (rows & Hr & Hl). exists (rows ++ [zero_row (width_of c d)])%list.
    split; [now apply H1|]. rewrite app_length. simpl. lia. }
  unfold h5_append. rewrite E1, (nentries_rect c f1 _ G R1).
  assert (Hj : norm_index (Z.of_nat (S (length L)) - 1) (S (length L)) = Some (length L)).
  { unfold norm_index. destruct (Z.ltb_spec (Z.of_nat (S (length L)) - 1) 0); [lia|].
    destruct (Z.leb_spec 0 (Z.of_nat (S (length L)) - 1)); [|lia].
    destruct (Z.ltb_spec (Z.of_nat (S (length L)) - 1) (Z.of_nat (S (length L)))); [|lia]. cbn [andb]. f_equal. lia. }
  destruct (h5_write_ok c f1 _ e _ _ G R1 Hj C) as (f2 & E2 & W1 & W2).
  exists f2. split; [exact E2|]. split.
  - intros k d Hk. rewrite (W1 k d _ Hk (H1 d _ (names_in_vars c d (nth_error_In _ _ Hk)) (Hv k d Hk))).
    f_equal. rewrite map_app. cbn [map]. rewrite <- (map_length (fun e => nth k (e_vals e) []) L). apply set_nth_last.
  - intros T. assert (Hin : In "time" (dataset_names c)) by (unfold dataset_names; rewrite T; now left).
    rewrite (W2 _ T (H1 "time" _ Hin (Ht T))).
    f_equal. rewrite map_app. cbn [map]. rewrite <- (map_length (fun e => [e_time e]) L). apply set_nth_last.
Qed.

Lemma overwrite_holds c f L e ix j : good_cfg c -> complete c e -> holds c f L -> norm_index ix (length L) = Some j ->
  exists f', h5_write c f ix (Tuple (map Some (e_vals e))) (Some (e_time e)) = (f', None) /\ holds c f' (put L j e).
Proof.
  intros G C H Hj. pose proof (holds_rect c f L H) as R. destruct H as [Hv Ht].
  pose proof (norm_index_lt _ _ _ Hj) as Lj.
  destruct (h5_write_ok c f ix e _ _ G R Hj C) as (f2 & E2 & W1 & W2).
  exists f2. split; [exact E2|]. split.
  - intros k d Hk. rewrite (W1 k d _ Hk (Hv k d Hk)). f_equal. rewrite map_put. apply set_nth_firstn. now rewrite map_length.
  - intros T. rewrite (W2 _ T (Ht T)). f_equal. rewrite map_put. apply set_nth_firstn. now rewrite map_length.
Qed.

Lemma export_holds c f L e index : good_cfg c -> complete c e -> holds c f L ->
  match position index (length L) with
  | Some p => exists f', diag_export c f (Tuple (map Some (e_vals e))) (Some (e_time e)) index = (f', None) /\ holds c f' (put L p e)
  | None => exists err, snd (diag_export c f (Tuple (map Some (e_vals e))) (Some (e_time e)) index) = Some err /\
            ((0 <= match index with Some i => i | None => 0 end)%Z ->
              fst (diag_export c f (Tuple (map Some (e_vals e))) (Some (e_time e)) index) = f)
  end.
Proof.
  intros G C H. pose proof (holds_rect c f L H) as R. unfold position, diag_export. destruct index as [i|].
  2: { destruct (append_holds c f L e G C H) as (f' & E & H'). exists f'. split; [exact E|]. now rewrite put_append. }
  rewrite (nentries_rect c f _ G R). destruct (Z.ltb_spec (Z.of_nat (length L)) i) as [H1|H1].
  { exists EAssert. split; reflexivity. }
  destruct (Z.leb_spec 0 i) as [H2|H2].
  - destruct (Z.eqb_spec i (Z.of_nat (length L))) as [->|N].
    + destruct (append_holds c f L e G C H) as (f' & E & H'). exists f'. split; [exact E|]. rewrite Nat2Z.id. now rewrite put_append.
    + apply overwrite_holds; auto. unfold norm_index. destruct (Z.ltb_spec i 0); [lia|].
      destruct (Z.leb_spec 0 i); [|lia]. destruct (Z.ltb_spec i (Z.of_nat (length L))); [reflexivity|lia].
  - destruct (Z.eqb_spec i (Z.of_nat (length L))); [lia|].
    destruct (Z.leb_spec (- Z.of_nat (length L)) i) as [H3|H3].
    + apply overwrite_holds; auto. unfold norm_index. destruct (Z.ltb_spec i 0); [|lia].
      destruct (Z.leb_spec 0 (i + Z.of_nat (length L))); [|lia]. destruct (Z.ltb_spec (i + Z.of_nat (length L)) (Z.of_nat (length L))); [|lia].
      cbn [andb]. f_equal. f_equal. lia.
    + exists EIndex. split; [|lia].
      assert (K : norm_index i (length L) = None).
      { unfold norm_index. destruct (Z.ltb_spec i 0); [|lia]. destruct (Z.leb_spec 0 (i + Z.of_nat (length L))); [lia|]. reflexivity. }
      unfold h5_write. destruct (hc_time c) eqn:T.
      * unfold write_row. destruct H as [_ Ht]. rewrite (Ht T). rewrite map_length, K. reflexivity.
      * destruct G as [Gv _]. destruct H as [Hv _]. unfold complete in C. destruct (hc_vars c) as [|d r]; [congruence|].
        destruct (e_vals e) as [|v vs]; [discriminate|]. cbn [map write_vars]. unfold write_row.
        rewrite (Hv 0%nat d eq_refl), map_length, K. reflexivity.
Qed.

Lemma run_exports_holds c rs f L : good_cfg c -> Forall (fun r => complete c (fst r)) rs ->
  Forall (fun r => match snd r with Some i => 0 <= i | None => True end) rs -> holds c f L ->
  holds c (run_exports c f rs) (fold_left (fun L r => spec_export L (fst r) (snd r)) rs L).
Proof.
  intros G. revert f L. induction rs as [|[e ix] rs IH]; intros f L HC HI H; [exact H|].
  inversion HC; inversion HI; subst. cbn [fst snd] in *.
  unfold run_exports. cbn [fold_left fst snd]. apply IH; auto.
  pose proof (export_holds c f L e ix G H2 H) as K. unfold spec_export.
  destruct (position ix (length L)) as [p|].
  - destruct K as (f' & E & H'). now rewrite E.
  - destruct K as (err & _ & E). rewrite E; [exact H|]. destruct ix; [assumption|lia].
Qed.
