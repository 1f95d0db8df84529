From Coq Require Import String Ascii Sorting.Sorted Permutation.
From Verif Require Import Num Exporter_Model Exporter_Proofs Callback_Model Callback_Spec.
Open Scope string_scope.
Open Scope Z_scope.

(** *** dictionaries *)
Lemma dict_get_set {A} (d : list (string * A)) k v k' :
  dict_get (dict_set d k v) k' = if String.eqb k' k then Some v else dict_get d k'.
Proof.
  induction d as [|[x y] d IH]; cbn [dict_set dict_get].
  - destruct (String.eqb_spec k' k); reflexivity.
  - destruct (String.eqb_spec k x) as [->|N]; cbn [dict_get].
    + destruct (String.eqb_spec k' x); reflexivity.
    + rewrite IH. destruct (String.eqb_spec k' x) as [->|]; [|reflexivity].
      destruct (String.eqb_spec x k); [congruence|reflexivity].
Qed.
Lemma dict_get_in {A} (d : list (string * A)) k : In k (map fst d) <-> dict_get d k <> None.
Proof.
  induction d as [|[x y] d IH]; cbn [map fst dict_get In]; [tauto|].
  destruct (String.eqb_spec k x) as [->|N].
  - split; [discriminate|auto].
  - rewrite <- IH. split; [intros [E|E]; [congruence|exact E]|auto].
Qed.

(** *** string order *)
Lemma ascii_compare_refl x : Ascii.compare x x = Eq.
Proof. unfold Ascii.compare. apply N.compare_refl. Qed.
Lemma str_compare_refl s : String.compare s s = Eq.
Proof. induction s as [|c s IH]; simpl; [reflexivity|now rewrite ascii_compare_refl]. Qed.
Lemma N_of_ascii_inj a b : N_of_ascii a = N_of_ascii b -> a = b.
Proof. intros H. rewrite <- (ascii_N_embedding a), <- (ascii_N_embedding b). now rewrite H. Qed.
Lemma ascii_compare_eq a b : Ascii.compare a b = Eq -> a = b.
Proof. intros H. apply N.compare_eq in H. now apply N_of_ascii_inj. Qed.
Lemma str_compare_eq a b : String.compare a b = Eq -> a = b.
Proof.
  revert b. induction a as [|x a IH]; intros [|y b] H; simpl in H; try discriminate; [reflexivity|].
  destruct (Ascii.compare x y) eqn:E; try discriminate. apply ascii_compare_eq in E. f_equal; auto.
Qed.
Lemma str_compare_antisym a b : String.compare b a = CompOpp (String.compare a b).
Proof.
  revert b. induction a as [|x a IH]; intros [|y b]; simpl; try reflexivity.
  assert (E : Ascii.compare y x = CompOpp (Ascii.compare x y)) by (unfold Ascii.compare; apply N.compare_antisym).
  rewrite E. destruct (Ascii.compare x y); simpl; auto.
Qed.
Lemma str_lt_trans a b c : str_lt a b -> str_lt b c -> str_lt a c.
Proof.
  unfold str_lt. revert b c. induction a as [|x a IH]; intros [|y b] [|z c] H1 H2; simpl in *; try discriminate; auto.
  destruct (Ascii.compare x y) eqn:E1; try discriminate.
  - apply ascii_compare_eq in E1. subst y. destruct (Ascii.compare x z) eqn:E2; try discriminate; eauto.
  - destruct (Ascii.compare y z) eqn:E2; try discriminate.
    + apply ascii_compare_eq in E2. subst z. now rewrite E1.
    + unfold Ascii.compare in *. apply N.compare_lt_iff in E1, E2.
      assert (K : (N_of_ascii x < N_of_ascii z)%N) by (eapply N.lt_trans; eassumption).
      apply N.compare_lt_iff in K. now rewrite K.
Qed.
Lemma str_leb_false a b : String.leb a b = false -> str_lt b a.
Proof.
  unfold String.leb, str_lt. rewrite (str_compare_antisym a b). destruct (String.compare a b); simpl; congruence.
Qed.
Lemma str_leb_true a b : String.leb a b = true -> a <> b -> str_lt a b.
Proof.
  unfold String.leb, str_lt. destruct (String.compare a b) eqn:E; try congruence.
  intros _ H. apply str_compare_eq in E. congruence.
Qed.

Lemma insert_in k l x : In x (insert_sorted k l) <-> x = k \/ In x l.
Proof.
  induction l as [|y l IH]; simpl; [intuition|].
  destruct (String.leb k y); simpl; [intuition|]. rewrite IH. intuition.
Qed.
Lemma insert_strict k l : StronglySorted str_lt l -> ~ In k l -> StronglySorted str_lt (insert_sorted k l).
Proof.
  induction l as [|y l IH]; intros H N; simpl; [repeat constructor|].
  inversion H as [|? ? Hs Hf]; subst. destruct (String.leb k y) eqn:E.
  - constructor; [exact H|]. assert (K : str_lt k y) by (apply str_leb_true; [exact E|intros ->; apply N; now left]).
    constructor; [exact K|]. eapply Forall_impl; [|exact Hf]. intros z Hz. eapply str_lt_trans; eassumption.
  - constructor; [apply IH; [exact Hs|intros Hin; apply N; now right]|].
    apply Forall_forall. intros z Hz. apply insert_in in Hz. destruct Hz as [->|Hz]; [now apply str_leb_false|].
    rewrite Forall_forall in Hf. auto.
Qed.
Lemma sorted_in l x : In x (sorted l) <-> In x l.
Proof. induction l as [|y l IH]; simpl; [tauto|]. rewrite insert_in, IH. intuition. Qed.
Lemma sorted_strict l : NoDup l -> StronglySorted str_lt (sorted l).
Proof.
  induction 1 as [|x l H1 H2 IH]; simpl; [constructor|]. apply insert_strict; [exact IH|]. now rewrite sorted_in.
Qed.

(** *** callback manager *)
Section CBM.
Context {CB : Type} (name_of : CB -> string).

Lemma cbm_get_add s cb mode mode' :
  cbm_get (cbm_add name_of s cb mode) mode' =
  if String.eqb mode' mode then dict_set (cbm_get s mode) (name_of cb) cb else cbm_get s mode'.
Proof.
  unfold cbm_get at 1, cbm_add. rewrite dict_get_set. destruct (String.eqb mode' mode); reflexivity.
Qed.

Lemma cbm_lookup ops mode k cb :
  dict_get (cbm_get (cbm_run name_of cbm_new ops) mode) k = Some cb <->
  name_of cb = k /\ last_added name_of ops mode cb.
Proof.
  revert k cb. induction ops as [|[c m] ops IH] using rev_ind; intros k cb.
  - cbn. split; [discriminate|]. intros [_ (pre & post & H & _)]. destruct pre; discriminate.
  - unfold cbm_run. rewrite fold_left_app. cbn [fold_left fst snd]. fold (cbm_run name_of cbm_new ops).
    rewrite cbm_get_add. destruct (String.eqb_spec mode m) as [->|Nm].
    + rewrite dict_get_set. destruct (String.eqb_spec k (name_of c)) as [->|Nk].
      * split.
        -- intros E. inversion E; subst. split; [reflexivity|]. exists ops, []. split; [reflexivity|]. intros ? [].
        -- intros [E (pre & post & H & L)]. f_equal.
           destruct (exists_last (l := (cb, m) :: post)) as [l' [z Hz]]; [discriminate|].
           destruct post as [|p0 post] using rev_ind.
           ++ apply app_inj_tail in H. destruct H as [_ H]. now inversion H.
           ++ rewrite app_comm_cons, app_assoc in H. apply app_inj_tail in H. destruct H as [_ H]. subst p0.
              exfalso. apply (L c); [apply in_or_app; right; now left|congruence].
      * rewrite IH. split; intros [E (pre & post & H & L)]; (split; [exact E|]).
        -- exists pre, (post ++ [(c, m)])%list. split; [now rewrite H, <- app_assoc|].
           intros cb' Hin. apply in_app_or in Hin. destruct Hin as [Hin|[Hin|[]]]; [now apply L|]. inversion Hin; subst. congruence.
        -- destruct post as [|p0 post _] using rev_ind.
           ++ apply app_inj_tail in H. destruct H as [_ H]. inversion H; subst. congruence.
           ++ rewrite app_comm_cons, app_assoc in H. apply app_inj_tail in H. destruct H as [H1 H2].
              exists pre, post. split; [exact H1|]. intros cb' Hin. apply L. apply in_or_app. now left.
    + rewrite IH. split; intros [E (pre & post & H & L)]; (split; [exact E|]).
      * exists pre, (post ++ [(c, m)])%list. split; [now rewrite H, <- app_assoc|].
        intros cb' Hin. apply in_app_or in Hin. destruct Hin as [Hin|[Hin|[]]]; [now apply L|]. congruence.
      * destruct post as [|p0 post _] using rev_ind.
        -- apply app_inj_tail in H. destruct H as [_ H]. inversion H; subst. congruence.
        -- rewrite app_comm_cons, app_assoc in H. apply app_inj_tail in H. destruct H as [H1 H2].
           exists pre, post. split; [exact H1|]. intros cb' Hin. apply L. apply in_or_app. now left.
Qed.

Lemma cbm_keys_nodup ops mode : NoDup (map fst (cbm_get (cbm_run name_of cbm_new ops) mode)).
Proof.
  induction ops as [|[c m] ops IH] using rev_ind; [constructor|].
  unfold cbm_run. rewrite fold_left_app. cbn [fold_left fst snd]. fold (cbm_run name_of cbm_new ops).
  rewrite cbm_get_add. destruct (String.eqb_spec mode m) as [->|]; [|exact IH]. now apply dict_set_nodup.
Qed.

Lemma flat_sorted (d : list (string * CB)) l :
  (forall k cb, dict_get d k = Some cb -> name_of cb = k) ->
  StronglySorted str_lt l ->
  StronglySorted (fun a b => str_lt (name_of a) (name_of b)) (flat_map (fun k => opt_list (dict_get d k)) l).
Proof.
  intros Hn. induction 1 as [|x l H IH Hf]; simpl; [constructor|].
  destruct (dict_get d x) as [cb|] eqn:E; [|exact IH]. simpl. constructor; [exact IH|].
  apply Forall_forall. intros cb' Hin. apply in_flat_map in Hin. destruct Hin as [k [Hk Hc]].
  destruct (dict_get d k) as [cb2|] eqn:E2; [|destruct Hc]. destruct Hc as [<-|[]].
  rewrite (Hn _ _ E), (Hn _ _ E2). rewrite Forall_forall in Hf. auto.
Qed.

Lemma cbm_evaluate_spec ops mode :
  let l := cbm_evaluate (cbm_run name_of cbm_new ops) mode in
  StronglySorted (fun a b => str_lt (name_of a) (name_of b)) l /\
  (forall cb, In cb l <-> last_added name_of ops mode cb).
Proof.
  intros l. set (d := cbm_get (cbm_run name_of cbm_new ops) mode).
  split.
  - apply flat_sorted; [|apply sorted_strict, cbm_keys_nodup].
    intros k cb H. apply cbm_lookup in H. tauto.
  - intros cb. unfold l, cbm_evaluate. rewrite in_flat_map. fold d. split.
    + intros [k [_ H]]. destruct (dict_get d k) as [cb'|] eqn:E; [|destruct H]. destruct H as [<-|[]].
      apply cbm_lookup in E. tauto.
    + intros H. assert (E : dict_get d (name_of cb) = Some cb) by (apply cbm_lookup; auto).
      exists (name_of cb). split; [|rewrite E; now left]. apply sorted_in, dict_get_in. congruence.
Qed.
End CBM.
