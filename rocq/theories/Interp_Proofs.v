(** Lemmas about Interp_Model.v *)
From Coq Require Import String Ascii Sorting.Sorted Permutation.
From Verif Require Import Num Exporter_Model Interp_Model Interp_Spec.
Open Scope Qc_scope.

Lemma increasing_inv x l : increasing (x :: l) -> increasing l /\ forall y, In y l -> x < y.
Proof. intro H. inversion H; subst. split; auto. intros y Hy. rewrite Forall_forall in H3. auto. Qed.

Lemma ss_low a v i x : (i < searchsorted a v)%nat -> nth_error a i = Some x -> x < v.
Proof.
  revert i. induction a as [|y a IH]; intros i Hi Hx; [destruct i; discriminate|].
  simpl in Hi. destruct (Qcltb_spec y v) as [L|L]; [|lia].
  destruct i; simpl in Hx; [congruence|]. apply (IH i); [lia|auto].
Qed.
Lemma ss_high a v i x : increasing a -> (searchsorted a v <= i)%nat -> nth_error a i = Some x -> v <= x.
Proof.
  revert i. induction a as [|y a IH]; intros i S Hi Hx; [destruct i; discriminate|].
  apply increasing_inv in S. destruct S as [S1 S2].
  simpl in Hi. destruct (Qcltb_spec y v) as [L|L].
  - destruct i; [lia|]. apply (IH i); auto; lia.
  - destruct i; simpl in Hx; [injection Hx; intros ->; qc|].
    apply nth_error_In in Hx. apply S2 in Hx. qc.
Qed.
Lemma ss_le a v : (searchsorted a v <= List.length a)%nat.
Proof. induction a as [|y a IH]; simpl; [lia|]. destruct (Qcltb y v); lia. Qed.
Lemma inc_nth_le a i j x y : increasing a -> (i <= j)%nat -> nth_error a i = Some x -> nth_error a j = Some y -> x <= y.
Proof.
  revert i j. induction a as [|z a IH]; intros i j S L Hi Hj; [destruct i; discriminate|].
  apply increasing_inv in S. destruct S as [S1 S2].
  destruct i, j; simpl in *; try lia.
  - assert (x = y) by congruence. subst. apply Qcle_refl.
  - injection Hi; intros ->. apply nth_error_In in Hj. apply S2 in Hj. apply Qclt_le_weak, Hj.
  - apply (IH i j); auto; lia.
Qed.
Lemma in_nth {A} (l : list A) x : In x l -> exists i, nth_error l i = Some x.
Proof. apply In_nth_error. Qed.

(** find_time_stamp *)
Lemma fts_prev_some a t k : increasing a -> find_time_stamp a t true = Some k ->
  exists x, nth_error a k = Some x /\ greatest_below (fun y => In y a) (t + TOL) x.
Proof.
  intros S H. unfold find_time_stamp in H. pose proof (ss_le a (t + TOL)) as L.
  destruct (Z.ltb_spec (Z.of_nat (searchsorted a (t + TOL)) - 1) 0) as [|E1]; [discriminate|].
  destruct (Z.leb_spec (Z.of_nat (length a)) (Z.of_nat (searchsorted a (t + TOL)) - 1)) as [|E2]; [discriminate|].
  injection H as <-. set (n := searchsorted a (t + TOL)) in *.
  assert (E : Z.to_nat (Z.of_nat n - 1) = (n - 1)%nat) by lia. rewrite E.
  destruct (nth_error a (n - 1)) as [x|] eqn:Hx.
  2:{ apply nth_error_None in Hx. lia. }
  exists x. split; auto. split; [eapply nth_error_In; eauto|]. split.
  - apply (ss_low a (t + TOL) (n - 1) x); auto. fold n. lia.
  - intros y Hy Hlt. apply in_nth in Hy. destruct Hy as [j Hj].
    assert (j <= n - 1)%nat. { destruct (Nat.le_gt_cases n j) as [G|G]; [|lia].
      pose proof (ss_high a (t + TOL) j y S G Hj). exfalso. qc. }
    eapply inc_nth_le; eauto.
Qed.
Lemma fts_next_some a t k : increasing a -> find_time_stamp a t false = Some k ->
  exists x, nth_error a k = Some x /\ least_from (fun y => In y a) (t + TOL) x.
Proof.
  intros S H. unfold find_time_stamp in H.
  destruct (Z.ltb_spec (Z.of_nat (searchsorted a (t + TOL)) - 0) 0) as [|E1]; [discriminate|].
  destruct (Z.leb_spec (Z.of_nat (length a)) (Z.of_nat (searchsorted a (t + TOL)) - 0)) as [|E2]; [discriminate|].
  injection H as <-. set (n := searchsorted a (t + TOL)) in *.
  assert (E : Z.to_nat (Z.of_nat n - 0) = n) by lia. rewrite E.
  destruct (nth_error a n) as [x|] eqn:Hx.
  2:{ apply nth_error_None in Hx. lia. }
  exists x. split; auto. split; [eapply nth_error_In; eauto|]. split.
  - apply (ss_high a (t + TOL) n x); auto.
  - intros y Hy Hle. apply in_nth in Hy. destruct Hy as [j Hj].
    assert (n <= j)%nat. { destruct (Nat.le_gt_cases n j) as [G|G]; [auto|].
      pose proof (ss_low a (t + TOL) j y G Hj). exfalso. qc. }
    eapply inc_nth_le; eauto.
Qed.
Lemma fts_prev_none a t : increasing a -> find_time_stamp a t true = None -> forall y, In y a -> t + TOL <= y.
Proof.
  intros S H y Hy. unfold find_time_stamp in H. pose proof (ss_le a (t + TOL)) as L.
  destruct (Z.ltb_spec (Z.of_nat (searchsorted a (t + TOL)) - 1) 0) as [E1|E1].
  - apply in_nth in Hy. destruct Hy as [j Hj]. apply (ss_high a (t + TOL) j y); auto. lia.
  - destruct (Z.leb_spec (Z.of_nat (length a)) (Z.of_nat (searchsorted a (t + TOL)) - 1)); [lia|discriminate].
Qed.
Lemma fts_next_none a t : find_time_stamp a t false = None -> forall y, In y a -> y < t + TOL.
Proof.
  intros H y Hy. unfold find_time_stamp in H. pose proof (ss_le a (t + TOL)) as L.
  destruct (Z.ltb_spec (Z.of_nat (searchsorted a (t + TOL)) - 0) 0) as [E1|E1]; [lia|].
  destruct (Z.leb_spec (Z.of_nat (length a)) (Z.of_nat (searchsorted a (t + TOL)) - 0)); [|discriminate].
  apply in_nth in Hy. destruct Hy as [j Hj]. apply (ss_low a (t + TOL) j y); auto.
  assert (j < length a)%nat by (apply nth_error_Some; congruence). lia.
Qed.
Lemma nearest_unique p P b x y : nearest_stamp p P b x -> nearest_stamp p P b y -> x = y.
Proof.
  destruct p; intros (A1 & A2 & A3) (B1 & B2 & B3).
  - pose proof (A3 y B1 B2). pose proof (B3 x A1 A2). now apply Qcle_antisym.
  - pose proof (A3 y B1 B2). pose proof (B3 x A1 A2). now apply Qcle_antisym.
Qed.
Lemma nearest_not_none p P b x : nearest_stamp p P b x -> ~ no_stamp p P b.
Proof. destruct p; intros (A1 & A2 & _) N; apply (N x A1 A2). Qed.
Lemma fts_some a t p k : increasing a -> find_time_stamp a t p = Some k ->
  exists x, nth_error a k = Some x /\ nearest_stamp p (fun y => In y a) (t + TOL) x.
Proof. destruct p; [apply fts_prev_some|apply fts_next_some]. Qed.
Lemma fts_none a t p : increasing a -> find_time_stamp a t p = None -> no_stamp p (fun y => In y a) (t + TOL).
Proof.
  destruct p; intros S H y Hy G.
  - pose proof (fts_prev_none a t S H y Hy). qc.
  - pose proof (fts_next_none a t H y Hy). qc.
Qed.
Lemma inc_nodup a i j x : increasing a -> nth_error a i = Some x -> nth_error a j = Some x -> i = j.
Proof.
  revert i j. induction a as [|z a IH]; intros i j S Hi Hj; [destruct i; discriminate|].
  apply increasing_inv in S. destruct S as [S1 S2].
  destruct i, j; simpl in *; auto.
  - exfalso. assert (x < x) by (replace x with z at 1 by congruence; apply S2; eapply nth_error_In; eauto). qc.
  - exfalso. assert (x < x) by (replace x with z at 1 by congruence; apply S2; eapply nth_error_In; eauto). qc.
Qed.

(** Sorting of files *)
Lemma insert_file_perm f l : Permutation (insert_file f l) (f :: l).
Proof.
  induction l as [|g r IH]; simpl; auto. destruct (Qcleb _ _); auto.
  etransitivity; [apply perm_skip, IH|]. apply perm_swap.
Qed.
Lemma sort_files_perm l : Permutation (sort_files l) l.
Proof. induction l as [|f l IH]; simpl; auto. etransitivity; [apply insert_file_perm|]. now apply perm_skip. Qed.

Definition start_le (f g : ncfile) := nc_start f <= nc_start g.
Lemma insert_file_sorted f l : StronglySorted start_le l -> StronglySorted start_le (insert_file f l).
Proof.
  induction l as [|g r IH]; simpl; intro S; [repeat constructor|].
  inversion S as [|? ? S1 S2]; subst.
  destruct (Qcleb_spec (nc_start f) (nc_start g)) as [L|L].
  - constructor; auto. constructor; auto. rewrite Forall_forall in *. intros h Hh.
    specialize (S2 h Hh). unfold start_le in *. eapply Qcle_trans; eauto.
  - constructor; auto. rewrite Forall_forall in *. intros h Hh.
    apply (Permutation_in _ (insert_file_perm f r)) in Hh. destruct Hh as [<-|Hh]; auto.
    unfold start_le. apply Qclt_le_weak. now apply Qcnot_le_lt.
Qed.
Lemma sort_files_sorted l : StronglySorted start_le (sort_files l).
Proof. induction l; simpl; [constructor|now apply insert_file_sorted]. Qed.

Lemma start_in f : valid_file f -> In (nc_start f) (nc_times f).
Proof. intros [H _]. unfold nc_start. destruct (nc_times f); [congruence|now left]. Qed.
Lemma start_least f x : valid_file f -> In x (nc_times f) -> nc_start f <= x.
Proof.
  intros [H I] Hx. unfold nc_start. destruct (nc_times f) as [|y l]; [congruence|]. simpl.
  destruct Hx as [->|Hx]; [apply Qcle_refl|]. apply increasing_inv in I. apply Qclt_le_weak. now apply I.
Qed.

Lemma FOP_perm {A} (R : A -> A -> Prop) (Rsym : forall x y, R x y -> R y x) l l' :
  Permutation l l' -> ForallOrdPairs R l -> ForallOrdPairs R l'.
Proof.
  induction 1 as [|x l l' P IH|x y l|l l' l'' P1 IH1 P2 IH2]; intro H; auto.
  - inversion H; subst. constructor; auto. eapply Permutation_Forall; eauto.
  - inversion H as [|? ? F1 H1]; subst. inversion H1 as [|? ? F2 H2]; subst.
    inversion F1; subst. repeat constructor; auto.
Qed.
Lemma sorted_before l : Forall valid_file l -> disjoint_ranges l -> StronglySorted all_before (sort_files l).
Proof.
  intros V D.
  assert (V' : Forall valid_file (sort_files l)) by (eapply Permutation_Forall; [symmetry; apply sort_files_perm|auto]).
  assert (D' : disjoint_ranges (sort_files l)).
  { eapply FOP_perm; [|symmetry; apply sort_files_perm|exact D]. tauto. }
  pose proof (sort_files_sorted l) as S. clear V D.
  induction (sort_files l) as [|f r IH]; constructor.
  - apply IH; inversion V'; inversion D'; inversion S; auto.
  - inversion V' as [|? ? V1 V2]; inversion D' as [|? ? D1 D2]; inversion S as [|? ? S1 S2]; subst.
    rewrite Forall_forall in *. intros g Hg. destruct (D1 g Hg) as [B|B]; auto.
    exfalso. pose proof (B _ _ (start_in g (V2 g Hg)) (start_in f V1)).
    pose proof (S2 g Hg). unfold start_le in *. qc.
Qed.

Lemma ss_nth_before l i j f g : StronglySorted all_before l -> (i < j)%nat ->
  nth_error l i = Some f -> nth_error l j = Some g -> all_before f g.
Proof.
  revert i j. induction l as [|h l IH]; intros i j S L Hi Hj; [destruct i; discriminate|].
  inversion S as [|? ? S1 S2]; subst. destruct i, j; simpl in *; try lia.
  - injection Hi as ->. rewrite Forall_forall in S2. apply S2. eapply nth_error_In; eauto.
  - apply (IH i j); auto; lia.
Qed.
Lemma starts_increasing l s : Forall valid_file l -> StronglySorted all_before l ->
  increasing (map (fun f => nc_start f - s) l).
Proof.
  intros V S. induction l as [|f l IH]; simpl; [constructor|].
  inversion V as [|? ? V1 V2]; inversion S as [|? ? S1 S2]; subst. constructor; [now apply IH|].
  rewrite Forall_forall in *. intros x Hx. apply in_map_iff in Hx. destruct Hx as (g & <- & Hg).
  pose proof (S2 g Hg _ _ (start_in f V1) (start_in g (V2 g Hg))). qc.
Qed.

(** The search in a list of files in time order *)
Section Search.
Variable files : list ncfile.
Variable s t : Qc.
Hypothesis V : Forall valid_file files.
Hypothesis S : StronglySorted all_before files.
Let B := (s + t + TOL)%Qc.
Let st := map (fun f => nc_start f - s) files.
Let ix := searchsorted st (t + TOL).

Lemma valid_nth i f : nth_error files i = Some f -> valid_file f.
Proof. intro H. rewrite Forall_forall in V. apply V. eapply nth_error_In; eauto. Qed.
Lemma low_start i f : (i < ix)%nat -> nth_error files i = Some f -> nc_start f < B.
Proof.
  intros L H. pose proof (ss_low st (t + TOL) i (nc_start f - s) L) as G.
  unfold st in G. rewrite nth_error_map, H in G. specialize (G eq_refl). unfold B. qc.
Qed.
Lemma high_start i f : (ix <= i)%nat -> nth_error files i = Some f -> B <= nc_start f.
Proof.
  intros L H. pose proof (ss_high st (t + TOL) i (nc_start f - s) (starts_increasing files s V S) L) as G.
  unfold st in G. rewrite nth_error_map, H in G. specialize (G eq_refl). unfold B. qc.
Qed.
Lemma ix_le : (ix <= length files)%nat.
Proof. unfold ix. pose proof (ss_le st (t + TOL)). unfold st in *. now rewrite map_length in H. Qed.

Definition good (previous : bool) (r : option found) : Prop :=
  match r with
  | Some (n, k, x) => exists f, In f files /\ nc_name f = n /\ nth_error (nc_times f) k = Some (x + s) /\
                        nearest_stamp previous (a_stamp files) B (x + s)
  | None => no_stamp previous (a_stamp files) B
  end.

Lemma file_nth f : In f files -> exists i, nth_error files i = Some f.
Proof. apply In_nth_error. Qed.

(** The result is the nearest stamp if it is nearest in its file and the others have nothing nearer *)
Lemma good_prev_from p f k : nth_error files p = Some f -> (p < ix)%nat -> (ix <= p + 1)%nat ->
  find_time_stamp (nc_times f) (s + t) true = Some k ->
  good true (Some (nc_name f, k, nth k (nc_times f) 0 - s)).
Proof.
  intros Hp L1 L2 F. destruct (fts_prev_some _ _ _ (proj2 (valid_nth _ _ Hp)) F) as (x & Hx & G1 & G2 & G3).
  exists f. pose proof (nth_error_nth _ _ 0 Hx) as E. rewrite E.
  replace (x - s + s) with x by ring.
  split; [eapply nth_error_In; eauto|]. split; auto. split; auto.
  split; [exists f; split; auto; eapply nth_error_In; eauto|]. split; [exact G2|].
  intros y (g & Hg & Hy) Hlt. destruct (file_nth g Hg) as [j Hj].
  destruct (Nat.lt_trichotomy j p) as [J|[J|J]].
  - pose proof (ss_nth_before _ _ _ _ _ S J Hj Hp y x Hy G1). apply Qclt_le_weak; auto.
  - subst j. assert (g = f) by congruence. subst g. apply G3; auto.
  - exfalso. assert (G : (ix <= j)%nat) by lia. pose proof (high_start j g G Hj).
    pose proof (start_least g y (valid_nth _ _ Hj) Hy). qc.
Qed.
Lemma find_prev_low p f : nth_error files p = Some f -> (p < ix)%nat ->
  exists k, find_time_stamp (nc_times f) (s + t) true = Some k.
Proof.
  intros Hp L. destruct (find_time_stamp _ _ _) as [k|] eqn:E; [eauto|].
  pose proof (fts_prev_none _ _ (proj2 (valid_nth _ _ Hp)) E _ (start_in f (valid_nth _ _ Hp))) as G.
  pose proof (low_start p f L Hp). unfold B in *. exfalso. qc.
Qed.
Lemma find_prev_high p f : nth_error files p = Some f -> (ix <= p)%nat ->
  find_time_stamp (nc_times f) (s + t) true = None.
Proof.
  intros Hp L. destruct (find_time_stamp _ _ _) as [k|] eqn:E; [|auto].
  destruct (fts_prev_some _ _ _ (proj2 (valid_nth _ _ Hp)) E) as (x & Hx & G1 & G2 & G3).
  pose proof (start_least f x (valid_nth _ _ Hp) G1). pose proof (high_start p f L Hp). unfold B in *. exfalso. qc.
Qed.
Lemma none_prev : ix = O -> no_stamp true (a_stamp files) B.
Proof.
  intros E y (g & Hg & Hy) Hlt. destruct (file_nth g Hg) as [j Hj].
  assert (G : (ix <= j)%nat) by lia. pose proof (high_start j g G Hj).
  pose proof (start_least g y (valid_nth _ _ Hj) Hy). qc.
Qed.

Lemma good_next_from p f k : nth_error files p = Some f ->
  (forall j g y, (j < p)%nat -> nth_error files j = Some g -> In y (nc_times g) -> y < B) ->
  find_time_stamp (nc_times f) (s + t) false = Some k ->
  good false (Some (nc_name f, k, nth k (nc_times f) 0 - s)).
Proof.
  intros Hp L F. destruct (fts_next_some _ _ _ (proj2 (valid_nth _ _ Hp)) F) as (x & Hx & G1 & G2 & G3).
  exists f. pose proof (nth_error_nth _ _ 0 Hx) as E. rewrite E.
  replace (x - s + s) with x by ring.
  split; [eapply nth_error_In; eauto|]. split; auto. split; auto.
  split; [exists f; split; auto; eapply nth_error_In; eauto|]. split; [exact G2|].
  intros y (g & Hg & Hy) Hle. destruct (file_nth g Hg) as [j Hj].
  destruct (Nat.lt_trichotomy j p) as [J|[J|J]].
  - exfalso. pose proof (L j g y J Hj Hy). qc.
  - subst j. assert (g = f) by congruence. subst g. apply G3; auto.
  - apply Qclt_le_weak. exact (ss_nth_before _ _ _ _ _ S J Hp Hj x y G1 Hy).
Qed.
Lemma find_next_high p f : nth_error files p = Some f -> (ix <= p)%nat ->
  exists k, find_time_stamp (nc_times f) (s + t) false = Some k.
Proof.
  intros Hp L. destruct (find_time_stamp _ _ _) as [k|] eqn:E; [eauto|].
  pose proof (fts_next_none _ _ E _ (start_in f (valid_nth _ _ Hp))) as G.
  pose proof (high_start p f L Hp). unfold B in *. exfalso. qc.
Qed.
(** stamps of files before the last one that starts early are early *)
Lemma early_stamps j p f g y : (j < p)%nat -> (p < ix)%nat -> nth_error files p = Some f -> nth_error files j = Some g ->
  In y (nc_times g) -> y < B.
Proof.
  intros L1 L2 Hp Hj Hy.
  pose proof (ss_nth_before _ _ _ _ _ S L1 Hj Hp y _ Hy (start_in f (valid_nth _ _ Hp))).
  pose proof (low_start p f L2 Hp). qc.
Qed.

Lemma search_sorted_good previous :
  good previous (try_candidates files
    (match ix with O => if Nat.ltb (ix + 1) (length st) then [ix; ix + 1]%nat else [ix] | Datatypes.S p => [p; ix] end) s t previous).
Proof.
  destruct ix as [|p] eqn:EI.
  - (* all files start late *)
    destruct (nth_error files 0) as [f0|] eqn:H0.
    2:{ apply nth_error_None in H0.
        assert (EF : files = []) by (apply length_zero_iff_nil; lia).
        assert (N : good previous None) by (destruct previous; intros y (g & Hg & _); rewrite EF in Hg; destruct Hg).
        rewrite EF. destruct (Nat.ltb (0 + 1) (length st)); exact N. }
    destruct previous.
    + assert (A : forall c, try_candidates files c s t true = None).
      { induction c as [|i c IH]; simpl; auto. destruct (nth_error files i) as [g|] eqn:Hg; auto.
        rewrite (find_prev_high i g Hg); [auto|lia]. }
      rewrite A. apply none_prev; auto.
    + destruct (find_next_high 0 f0 H0) as [k Hk]; [lia|].
      assert (A : forall c, try_candidates files (0 :: c)%nat s t false = Some (nc_name f0, k, nth k (nc_times f0) 0 - s)).
      { intro c. cbn [try_candidates]. rewrite H0, Hk. reflexivity. }
      destruct (0 + 1 <? length st)%nat; rewrite A; (eapply good_next_from; [exact H0| |exact Hk]); intros; lia.
  - assert (Lp : (p < length files)%nat) by (pose proof ix_le; lia).
    destruct (nth_error files p) as [f|] eqn:Hp.
    2:{ apply nth_error_None in Hp. lia. }
    destruct previous.
    + destruct (find_prev_low p f Hp) as [k Hk]; [lia|]. cbn [try_candidates]. rewrite Hp, Hk.
      eapply good_prev_from; eauto; lia.
    + cbn [try_candidates]. rewrite Hp. destruct (find_time_stamp (nc_times f) (s + t) false) as [k|] eqn:Hk.
      * eapply good_next_from; [exact Hp| |exact Hk]. intros j g y Lj Hj Hy. eapply (early_stamps j p); eauto; lia.
      * assert (Early : forall y, In y (nc_times f) -> y < B) by (intros y Hy; unfold B; eapply fts_next_none; eauto).
        destruct (nth_error files (Datatypes.S p)) as [f'|] eqn:Hp'.
        -- destruct (find_next_high (Datatypes.S p) f' Hp') as [k Hk']; [lia|]. rewrite Hk'.
           eapply good_next_from; [exact Hp'| |exact Hk'].
           intros j g y Lj Hj Hy. destruct (Nat.eq_dec j p) as [->|Nj].
           ++ assert (g = f) by congruence. subst g. auto.
           ++ eapply (early_stamps j p); eauto; lia.
        -- intros y (g & Hg & Hy) Hle. destruct (file_nth g Hg) as [j Hj].
           apply nth_error_None in Hp'. assert (j < length files)%nat by (apply nth_error_Some; congruence).
           destruct (Nat.eq_dec j p) as [->|Nj].
           ++ assert (g = f) by congruence. subst g. pose proof (Early y Hy). qc.
           ++ assert (Lj : (j < p)%nat) by lia. assert (Li : (p < ix)%nat) by lia.
              pose proof (early_stamps j p f g y Lj Li Hp Hj Hy). qc.
Qed.
End Search.
