(** C78: station files written by a forward run and read back as observations. *)
From Coq Require Import String Ascii.
From Verif Require Import Num Exporter_Model Callback_Model Callback_Spec Callback_Proofs Callback_Proofs2 Callback_Proofs3
  P_Callback P_Registry StationFile_Model.
Open Scope string_scope.
Open Scope Z_scope.

(* ------------------------------------------------------------------ *)
(** * Specification *)
Fixpoint has_char (c : ascii) (s : string) : bool :=
  match s with EmptyString => false | String a r => Ascii.eqb a c || has_char c r end.
Definition spaced (s : string) : bool := has_char " " s.
(** What the schedule evaluates station [i] with *)
Definition mine (i : nat) (sched : list (nat * entry)) : list entry :=
  map snd (filter (fun p => Nat.eqb (fst p) i) sched).
(** ... as far as it lies in the time window of the station *)
Definition recorded (s : sta) (es : list entry) : list entry :=
  filter (fun e => window_b (cb_start (s_cb s)) (cb_end (s_cb s)) (e_time e)) es.
(** The number of an entry with one value *)
Definition number (e : entry) : Qc := nth 0 (nth 0 (e_vals e) []) (qz 0).
(** A station callback for one field with short name [v] *)
Definition records (v : string) (s : sta) : Prop :=
  exists loc f x y t0 t1 log, s = new_sta loc [f] x y t0 t1 log /\ before_underscore f = v /\
    nonzero_bound t0 /\ nonzero_bound t1.

(* ------------------------------------------------------------------ *)
(** * Strings *)
Lemma app_assoc_s (a b c : string) : (a ++ b) ++ c = a ++ (b ++ c).
Proof. induction a as [|x a IH]; cbn; [reflexivity|now rewrite IH]. Qed.
Lemma length_app_s (a b : string) : String.length (a ++ b) = (String.length a + String.length b)%nat.
Proof. induction a as [|x a IH]; cbn; [reflexivity|now rewrite IH]. Qed.
Lemma app_inj_r : forall (a b s : string), a ++ s = b ++ s -> a = b.
Proof.
  induction a as [|x a IH]; intros [|y b] s H; cbn in H.
  - reflexivity.
  - exfalso. apply (f_equal String.length) in H. cbn in H. rewrite length_app_s in H. lia.
  - exfalso. apply (f_equal String.length) in H. cbn in H. rewrite length_app_s in H. lia.
  - injection H as -> H. f_equal. exact (IH _ _ H).
Qed.
Lemma app_inj_l : forall (s a b : string), s ++ a = s ++ b -> a = b.
Proof. induction s as [|x s IH]; cbn; intros a b H; [exact H|]. injection H as H. now apply IH. Qed.
Lemma has_char_app c : forall a b, has_char c (a ++ b) = has_char c a || has_char c b.
Proof. induction a as [|x a IH]; intro b; cbn; [reflexivity|]. now rewrite IH, orb_assoc. Qed.
Lemma unspace_app : forall a b, unspace (a ++ b) = unspace a ++ unspace b.
Proof. induction a as [|x a IH]; intro b; cbn; [reflexivity|]. now rewrite IH. Qed.
Lemma unspace_id : forall s, spaced s = false -> unspace s = s.
Proof.
  unfold spaced. induction s as [|x s IH]; cbn; intro H; [reflexivity|].
  apply orb_false_iff in H as [H1 H2]. rewrite H1, IH by exact H2. reflexivity.
Qed.
Lemma unspace_none : forall s, spaced (unspace s) = false.
Proof.
  unfold spaced. induction s as [|x s IH]; cbn; [reflexivity|]. rewrite IH, orb_false_r.
  destruct (Ascii.eqb x " ") eqn:E; [reflexivity|exact E].
Qed.
Lemma short_no_underscore : forall f, has_char "_" (before_underscore f) = false.
Proof.
  induction f as [|x f IH]; cbn; [reflexivity|]. destruct (Ascii.eqb x "_") eqn:E; [reflexivity|].
  cbn. now rewrite E, IH.
Qed.
(** A name is split at its last underscore. *)
Lemma last_underscore : forall a a' b b', has_char "_" b = false -> has_char "_" b' = false ->
  a ++ "_" ++ b = a' ++ "_" ++ b' -> a = a' /\ b = b'.
Proof.
  induction a as [|x a IH]; intros [|y a'] b b' H H' E; cbn in E.
  - injection E as E. auto.
  - exfalso. injection E as Y E. subst y. rewrite E, has_char_app in H. apply orb_false_iff in H as [_ H]. cbn in H. discriminate H.
  - exfalso. injection E as Y E. subst x. rewrite <- E, has_char_app in H'. apply orb_false_iff in H' as [_ H']. cbn in H'. discriminate H'.
  - injection E as -> E. destruct (IH _ _ _ H H' E) as [-> ->]. auto.
Qed.

Lemma file_is_asked : forall loc f, spaced loc = false -> spaced (before_underscore f) = false ->
  diag_file (ts_name loc [f]) = obs_file loc (before_underscore f).
Proof.
  intros loc f H1 H2. unfold diag_file, ts_name, obs_file. cbn [map String.concat].
  rewrite !unspace_app, (unspace_id loc), (unspace_id (before_underscore f)) by assumption.
  cbn [unspace append Ascii.eqb Bool.eqb]. rewrite !app_assoc_s. reflexivity.
Qed.

(** Different stations, or different fields at one station, have different files. *)
Theorem C78_files_distinct : forall l1 f1 l2 f2,
  spaced l1 = false -> spaced l2 = false -> spaced f1 = false -> spaced f2 = false ->
  diag_file (ts_name l1 [f1]) = diag_file (ts_name l2 [f2]) ->
  l1 = l2 /\ before_underscore f1 = before_underscore f2.
Proof.
  intros l1 f1 l2 f2 A B C D.
  assert (K : forall f, spaced f = false -> spaced (before_underscore f) = false).
  { unfold spaced. induction f as [|x f IH]; cbn; intro H; [reflexivity|]. apply orb_false_iff in H as [H1 H2].
    destruct (Ascii.eqb x "_"); [reflexivity|]. cbn. now rewrite H1, IH. }
  rewrite !file_is_asked by auto. unfold obs_file. intro E.
  apply app_inj_l in E. rewrite <- !app_assoc_s in E. apply app_inj_r in E. rewrite !app_assoc_s in E.
  apply last_underscore in E; [exact E| |]; apply short_no_underscore.
Qed.

(* ------------------------------------------------------------------ *)
(** * A run acts on every station as if it were alone *)
Definition apart (ss : list sta) : Prop := forall i j s t,
  nth_error ss i = Some s -> nth_error ss j = Some t -> sta_file s = sta_file t -> i = j.
Definition with_cb (s : sta) (cb : callback) : sta := mk_sta (s_loc s) (s_fields s) (s_xy s) cb.
Definition owns (s : sta) (d : disk) : Prop :=
  cb_create (s_cb s) = true /\ cb_hdf5 (s_cb s) = true /\
  (cb_init (s_cb s) = true -> exists h, dict_get d (sta_file s) = Some h /\ f_xy h = Some (s_xy s)).

Lemma evaluate_flags cb f e cb' f' r :
  cb_evaluate cb f (e_time e) (Tuple (map Some (e_vals e))) None = (cb', f', r) ->
  cb_create cb' = cb_create cb /\ cb_hdf5 cb' = cb_hdf5 cb /\ cb_start cb' = cb_start cb /\ cb_end cb' = cb_end cb /\
  cb_cfg cb' = cb_cfg cb /\
  (cb_init cb' = true -> cb_init cb = true \/ in_window (cb_start cb) (cb_end cb) (e_time e) = true) /\
  (cb_init cb = true -> cb_init cb' = true) /\
  (r = None -> cb_hdf5 cb = true -> in_window (cb_start cb) (cb_end cb) (e_time e) = true -> cb_init cb' = true).
Proof.
  unfold cb_evaluate. intro H. destruct (in_window _ _ _) eqn:W.
  - rewrite andb_false_r in H. destruct (cb_hdf5 cb) eqn:Hh.
    + unfold push_to_hdf5 in H. destruct (cb_init cb) eqn:Hi.
      * destruct (diag_export _ _ _ _ _) as [f2 e2]. injection H as <- <- <-. tauto.
      * destruct (cb_create cb) eqn:Hc.
        -- destruct (h5_create (cb_cfg cb)) as [f0 [x|]].
           ++ injection H as <- <- <-. rewrite Hi, Hc, Hh. split; [reflexivity|]. split; [reflexivity|]. split; [reflexivity|].
              split; [reflexivity|]. split; [reflexivity|]. split; [intro; discriminate|]. split; [intro; discriminate|]. discriminate.
           ++ cbn [cb_initialised cb_cfg] in H. destruct (diag_export _ _ _ _ _) as [f2 e2]. injection H as <- <- <-.
              cbn. rewrite Hc, Hh. tauto.
        -- cbn [cb_initialised cb_cfg] in H. destruct (diag_export _ _ _ _ _) as [f2 e2]. injection H as <- <- <-.
           cbn. rewrite Hc, Hh. tauto.
    + injection H as <- <- <-. rewrite Hh. split; [reflexivity|]. split; [reflexivity|]. split; [reflexivity|].
      split; [reflexivity|]. split; [reflexivity|]. split; [tauto|]. split; [tauto|]. discriminate.
  - injection H as <- <- <-. split; [reflexivity|]. split; [reflexivity|]. split; [reflexivity|].
    split; [reflexivity|]. split; [reflexivity|]. split; [tauto|]. split; [tauto|]. discriminate.
Qed.

Lemma run_init es : forall cb f cb' f', run_callback cb f (appends es) = (cb', f', None) -> cb_hdf5 cb = true ->
  cb_init cb = true \/ filter (accepts cb) es <> [] -> cb_init cb' = true.
Proof.
  induction es as [|e es IH]; intros cb f cb' f' H Hh K; cbn [appends map run_callback] in H.
  - injection H as <- <-. destruct K as [K|K]; [exact K|contradiction].
  - destruct (cb_evaluate cb f (e_time e) _ None) as [[cb1 f1] [x|]] eqn:E; [discriminate|].
    destruct (evaluate_flags _ _ _ _ _ _ E) as (F1 & F2 & F3 & F4 & F5 & F6 & F7 & F8).
    apply (IH cb1 f1 cb' f' H); [now rewrite F2|].
    destruct K as [K|K]; [left; auto|]. cbn [filter] in K. unfold accepts in K at 1.
    destruct (in_window (cb_start cb) (cb_end cb) (e_time e)) eqn:W; [left; now apply F8|].
    right. intro Z. apply K. rewrite <- Z. apply filter_ext. intro a. unfold accepts. now rewrite F3, F4.
Qed.

Lemma evaluate_alone s d e : 
  let '(cb', f', r) := cb_evaluate (s_cb s) (data_of d (sta_file s)) (e_time e) (Tuple (map Some (e_vals e))) None in
  exists d', sta_evaluate s d e = (with_cb s cb', d', r) /\ data_of d' (sta_file s) = f' /\
    (forall n, n <> sta_file s -> dict_get d' n = dict_get d n) /\
    (owns s d -> owns (with_cb s cb') d').
Proof.
  destruct (cb_evaluate (s_cb s) (data_of d (sta_file s)) (e_time e) _ None) as [[cb' f'] r] eqn:E.
  destruct (evaluate_flags _ _ _ _ _ _ E) as (F1 & F2 & F3 & F4 & F5 & F6 & F7 & F8).
  unfold sta_evaluate. destruct (in_window _ _ _) eqn:W.
  - rewrite E. eexists. split; [reflexivity|]. split.
    + unfold data_of. rewrite dict_get_set, String.eqb_refl. reflexivity.
    + split.
      * intros n N. rewrite dict_get_set. destruct (String.eqb_spec n (sta_file s)); [contradiction|reflexivity].
      * intros (O1 & O2 & O3). split; [cbn; congruence|]. split; [cbn; congruence|]. intros _.
        change (sta_file (with_cb s cb')) with (sta_file s). change (s_xy (with_cb s cb')) with (s_xy s).
        rewrite dict_get_set, String.eqb_refl. eexists. split; [reflexivity|]. cbn [f_xy]. rewrite O1.
        destruct (cb_init (s_cb s)); cbn [negb andb]; [|reflexivity].
        destruct (O3 eq_refl) as (h & -> & Hx). exact Hx.
  - unfold cb_evaluate in E. rewrite W in E. injection E as <- <- <-.
    exists d. destruct s as [l0 fl0 xy0 cb0]; cbn [s_cb s_loc s_fields s_xy with_cb] in *. split; [reflexivity|]. split; [reflexivity|]. split; [reflexivity|auto].
Qed.

Lemma with_cb_file s cb : sta_file (with_cb s cb) = sta_file s. Proof. reflexivity. Qed.
Lemma mine_same i e r : mine i ((i, e) :: r) = e :: mine i r.
Proof. unfold mine. cbn [filter fst]. now rewrite Nat.eqb_refl. Qed.
Lemma mine_other i j e r : i <> j -> mine j ((i, e) :: r) = mine j r.
Proof. intro N. unfold mine. cbn [filter fst]. apply Nat.eqb_neq in N. now rewrite N. Qed.

Lemma run_alone : forall sched ss d, apart ss ->
  (forall i s, nth_error ss i = Some s -> owns s d /\
     exists cb f, run_callback (s_cb s) (data_of d (sta_file s)) (appends (mine i sched)) = (cb, f, None)) ->
  exists ss' d', sta_run ss d sched = (ss', d', None) /\
  forall i s, nth_error ss i = Some s -> exists cb, nth_error ss' i = Some (with_cb s cb) /\ owns (with_cb s cb) d' /\
    run_callback (s_cb s) (data_of d (sta_file s)) (appends (mine i sched)) = (cb, data_of d' (sta_file s), None).
Proof.
  induction sched as [|[i e] r IH]; intros ss d A H; cbn [sta_run].
  - exists ss, d. split; [reflexivity|]. intros i s Hs. exists (s_cb s). destruct (H i s Hs) as [O _].
    destruct s as [l0 fl0 xy0 cb0]; cbn [with_cb s_cb s_loc s_fields s_xy] in *. split; [exact Hs|]. split; [exact O|reflexivity].
  - destruct (nth_error ss i) as [s|] eqn:Ei.
    + destruct (H i s Ei) as (O & cb & f & Hr). rewrite mine_same in Hr. cbn [appends map run_callback] in Hr.
      pose proof (evaluate_alone s d e) as K.
      destruct (cb_evaluate (s_cb s) (data_of d (sta_file s)) (e_time e) _ None) as [[cb1 f1] [x|]] eqn:Ev;
        [discriminate|].
      destruct K as (d1 & E1 & D1 & D2 & O1). rewrite E1.
      destruct (IH (set_nth ss i (with_cb s cb1)) d1) as (ss' & d' & R & Q).
      { intros a b t u Ha Hb Hf. rewrite nth_set_nth in Ha, Hb. rewrite Ei in Ha, Hb.
        destruct (Nat.eqb_spec i a) as [Ea|Na]; destruct (Nat.eqb_spec i b) as [Eb|Nb]; try congruence.
        - injection Ha as <-. rewrite with_cb_file in Hf. subst a. exact (A i b s u Ei Hb Hf).
        - injection Hb as <-. rewrite with_cb_file in Hf. subst b. exact (A a i t s Ha Ei Hf).
        - exact (A a b t u Ha Hb Hf). }
      { intros a t Ha. rewrite nth_set_nth, Ei in Ha. destruct (Nat.eqb_spec i a) as [Ea|Na].
        - injection Ha as <-. split; [exact (O1 O)|]. exists cb, f. rewrite with_cb_file, D1. subst a. exact Hr.
        - destruct (H a t Ha) as ((T1 & T2 & T3) & cbt & ft & Ht).
          assert (Nf : sta_file t <> sta_file s) by (intro Z; apply Na; exact (A i a s t Ei Ha (eq_sym Z))).
          split.
          + split; [exact T1|]. split; [exact T2|]. intro Z. rewrite (D2 _ Nf). now apply T3.
          + exists cbt, ft. rewrite mine_other in Ht by exact Na.
            unfold data_of in *. rewrite (D2 _ Nf). exact Ht. }
      exists ss', d'. split; [exact R|]. intros a t Ha. destruct (Nat.eq_dec i a) as [<-|Na].
      * assert (t = s) by congruence. subst t. destruct (Q i (with_cb s cb1)) as (c & C1 & C2 & C3).
        { rewrite nth_set_nth, Nat.eqb_refl, Ei. reflexivity. }
        exists c. split; [exact C1|]. split; [exact C2|]. rewrite mine_same. cbn [appends map run_callback]. rewrite Ev.
        rewrite with_cb_file, D1 in C3. exact C3.
      * destruct (Q a t) as (c & C1 & C2 & C3).
        { rewrite nth_set_nth. apply Nat.eqb_neq in Na. rewrite Na. exact Ha. }
        exists c. split; [exact C1|]. split; [exact C2|]. rewrite mine_other by exact Na.
        assert (Nf : sta_file t <> sta_file s) by (intro Z; apply Na; exact (A i a s t Ei Ha (eq_sym Z))).
        unfold data_of in C3 at 1. rewrite (D2 _ Nf) in C3. exact C3.
    + destruct (IH ss d A) as (ss' & d' & R & Q).
      { intros a t Ha. destruct (H a t Ha) as (O & cb & f & Hr). split; [exact O|]. exists cb, f.
        rewrite mine_other in Hr by (intro Z; congruence). exact Hr. }
      exists ss', d'. split; [exact R|]. intros a t Ha. destruct (Q a t Ha) as (c & C1 & C2 & C3). exists c.
      split; [exact C1|]. split; [exact C2|]. rewrite mine_other by (intro Z; congruence). exact C3.
Qed.

(* ------------------------------------------------------------------ *)
(** * Round trip *)
Lemma concat_single {A B} (g : A -> B) l : concat (map (fun e => [g e]) l) = map g l.
Proof. induction l as [|a l IH]; cbn; [reflexivity|now rewrite IH]. Qed.

(** Whatever the interleaving of the evaluations and whatever was on disk before: the
    observations loaded for the stations are the times and values of the evaluations in
    their windows, in order, with their coordinates, and in the order asked for. *)
Theorem C78_round_trip : forall v ss d sched names,
  v <> "time" -> spaced v = false ->
  Forall (records v) ss -> Forall (fun s => spaced (s_loc s) = false) ss -> NoDup (map s_loc ss) ->
  (forall p, In p sched -> exists q, e_vals (snd p) = [[q]]) ->
  names <> [] ->
  (forall n, In n names -> exists i s, nth_error ss i = Some s /\ s_loc s = n /\ recorded s (mine i sched) <> []) ->
  exists ss' d' l, sta_run ss d sched = (ss', d', None) /\ load_scalar d' v names = LOk l /\
    Forall2 (fun n x => forall i s, nth_error ss i = Some s -> s_loc s = n ->
      x = (map e_time (recorded s (mine i sched)), map number (recorded s (mine i sched)), s_xy s)) names l.
Proof.
  intros v ss d sched names Vt Vs Hr Hsp ND Hv Hne Hn.
  assert (File : forall i s, nth_error ss i = Some s -> sta_file s = obs_file (s_loc s) v /\ spaced (s_loc s) = false).
  { intros i s Hs. pose proof (nth_error_In _ _ Hs) as I0. rewrite Forall_forall in Hr, Hsp.
    destruct (Hr s I0) as (loc & f & x & y & t0 & t1 & log & -> & <- & _). specialize (Hsp _ I0).
    split; [|exact Hsp]. unfold sta_file, new_sta. cbn [s_loc s_fields]. now apply file_is_asked. }
  assert (Vu : forall i s, nth_error ss i = Some s -> has_char "_" v = false).
  { intros i s Hs. pose proof (nth_error_In _ _ Hs) as I0. rewrite Forall_forall in Hr.
    destruct (Hr s I0) as (loc & f & x & y & t0 & t1 & log & _ & <- & _). apply short_no_underscore. }
  assert (Same : forall i j s t, nth_error ss i = Some s -> nth_error ss j = Some t -> s_loc s = s_loc t -> i = j).
  { intros i j s t Hi Hj E. rewrite NoDup_nth_error in ND. apply ND.
    - rewrite map_length. apply nth_error_Some. congruence.
    - rewrite (map_nth_error s_loc _ _ Hi), (map_nth_error s_loc _ _ Hj). now f_equal. }
  assert (Ap : apart ss).
  { intros i j s t Hi Hj E. destruct (File i s Hi) as [F1 _]. destruct (File j t Hj) as [F2 _]. rewrite F1, F2 in E.
    unfold obs_file in E. apply app_inj_l in E. rewrite <- !app_assoc_s in E. apply app_inj_r in E. rewrite !app_assoc_s in E.
    apply last_underscore in E; [|exact (Vu i s Hi)|exact (Vu i s Hi)]. exact (Same i j s t Hi Hj (proj1 E)). }
  assert (Run : forall i s, nth_error ss i = Some s ->
    owns s d /\ good_cfg (cb_cfg (s_cb s)) /\ hc_vars (cb_cfg (s_cb s)) = [v] /\ hc_time (cb_cfg (s_cb s)) = true /\
    cb_init (s_cb s) = false /\ nonzero_bound (cb_start (s_cb s)) /\ nonzero_bound (cb_end (s_cb s)) /\
    exists cb f, run_callback (s_cb s) (data_of d (sta_file s)) (appends (mine i sched)) = (cb, f, None) /\
      (recorded s (mine i sched) <> [] -> holds (cb_cfg (s_cb s)) f (recorded s (mine i sched)))).
  { intros i s Hs. pose proof (nth_error_In _ _ Hs) as I0. rewrite Forall_forall in Hr.
    destruct (Hr s I0) as (loc & f & x & y & t0 & t1 & log & -> & Ev & N0 & N1). unfold new_sta in *. cbn [s_cb] in *.
    assert (G : good_cfg (mkCfg (map before_underscore [f]) true 1)).
    { split; [discriminate|]. cbn. rewrite Ev. constructor; [|constructor; [easy|constructor]]. intros [Z|[]]. now apply Vt. }
    split.
    { split; [reflexivity|]. split; [reflexivity|]. cbn. discriminate. }
    split; [exact G|]. split; [cbn; now rewrite Ev|]. split; [reflexivity|]. split; [reflexivity|].
    split; [exact N0|]. split; [exact N1|].
    set (s := mk_sta _ _ _ _) in *.
    destruct (C11_record_of_appending_callback (s_cb s) (data_of d (sta_file s)) (mine i sched)) as (cb & f' & E & _ & K);
      try assumption.
    - split; [reflexivity|]. split; reflexivity.
    - apply Forall_forall. intros e He. unfold mine in He. apply in_map_iff in He as (p & <- & Hp). apply filter_In in Hp as [Hp _].
      destruct (Hv p Hp) as (q & Eq). unfold complete. rewrite Eq. reflexivity.
    - exists cb, f'. split; [exact E|exact K]. }
  destruct (run_alone sched ss d Ap) as (ss' & d' & R & Q).
  { intros i s Hs. destruct (Run i s Hs) as (O & _ & _ & _ & _ & _ & _ & cb & f & E & _). split; [exact O|]. now exists cb, f. }
  exists ss', d'.
  assert (One : forall i s, nth_error ss i = Some s -> recorded s (mine i sched) <> [] ->
    load_one d' v (s_loc s) = LOk (map e_time (recorded s (mine i sched)), map number (recorded s (mine i sched)), s_xy s)).
  { intros i s Hs Hk. destruct (Run i s Hs) as (_ & _ & Hvars & Htime & Hinit & N0 & N1 & cb0 & f0 & E0 & H0).
    destruct (Q i s Hs) as (cb & C1 & C2 & C3). rewrite E0 in C3. injection C3 as C3 C4. subst cb0.
    specialize (H0 Hk). destruct H0 as [HV HT]. specialize (HT Htime).
    rewrite Hvars in HV. specialize (HV 0%nat v eq_refl). rewrite C4 in HV, HT.
    assert (CI : cb_init cb = true).
    { apply (run_init _ _ _ _ _ E0).
      - destruct C2 as (_ & C2 & _). cbn in C2. pose proof (nth_error_In _ _ Hs) as I0. rewrite Forall_forall in Hr.
        destruct (Hr s I0) as (loc & f & x & y & t0 & t1 & log & -> & _). reflexivity.
      - right. intro Z. apply Hk. rewrite <- Z. unfold recorded. apply filter_ext. intro e. unfold accepts.
        now rewrite in_window_b. }
    destruct C2 as (_ & _ & C2). destruct (C2 CI) as (h & Hh & Hx). rewrite with_cb_file in Hh. cbn [with_cb s_xy] in Hx.
    unfold data_of in HV, HT. rewrite Hh in HV, HT.
    unfold load_one. destruct (File i s Hs) as [<- _]. rewrite Hh, HT, HV, Hx. f_equal. f_equal. f_equal.
    - apply concat_single.
    - assert (L : forall es, (forall e, In e es -> exists q, e_vals e = [[q]]) ->
        concat (map (fun e => nth 0 (e_vals e) []) es) = map number es).
      { clear. induction es as [|e es IH]; intro H; cbn [map concat]; [reflexivity|].
        rewrite IH by (intros; apply H; now right). destruct (H e (or_introl eq_refl)) as (q & Eq).
        unfold number. rewrite Eq. reflexivity. }
      apply L. intros e He. unfold recorded in He. apply filter_In in He as [He _]. unfold mine in He.
      apply in_map_iff in He as (p & <- & Hp). apply filter_In in Hp as [Hp _]. exact (Hv p Hp). }
  assert (All : forall ns, (forall n, In n ns -> In n names) -> exists l, load_each d' v ns = LOk l /\
    Forall2 (fun n x => forall i s, nth_error ss i = Some s -> s_loc s = n ->
      x = (map e_time (recorded s (mine i sched)), map number (recorded s (mine i sched)), s_xy s)) ns l).
  { induction ns as [|n ns IH]; intro Hin.
    - exists []. split; [reflexivity|constructor].
    - destruct IH as (l & El & Fl). { intros; apply Hin; now right. }
      destruct (Hn n (Hin n (or_introl eq_refl))) as (i & s & Hs & Hl & Hk). cbn [load_each].
      pose proof (One i s Hs Hk) as O1. rewrite Hl in O1. rewrite O1, El. eexists. split; [reflexivity|]. constructor; [|exact Fl].
      intros j t Hj Ht. assert (i = j) by (apply (Same i j s t Hs Hj); congruence). subst j.
      assert (t = s) by congruence. now subst t. }
  destruct (All names (fun n H => H)) as (l & El & Fl). exists l. split; [exact R|]. split; [|exact Fl].
  unfold load_scalar. rewrite El. destruct l; [|reflexivity]. inversion Fl. congruence.
Qed.

(* ------------------------------------------------------------------ *)
(** * What is not found *)
Lemma dict_keys {A} (d : list (string * A)) k (P : string -> Prop) :
  (forall n, In n (map fst d) -> P n) -> dict_get d k <> None -> P k.
Proof. intros H E. apply H. now apply dict_get_in. Qed.

(** A station whose name contains a space is written, but never found again. *)
Theorem C78_space_refuted : forall ss sched ss' d' e loc v names,
  sta_run ss [] sched = (ss', d', e) -> spaced loc = true -> load_scalar d' v (loc :: names) = LErr NoFile.
Proof.
  intros ss sched ss' d' e loc v names H Hs.
  assert (K : forall sched ss d, (forall n, dict_get d n <> None -> spaced n = false) ->
    forall ss' d' e, sta_run ss d sched = (ss', d', e) -> forall n, dict_get d' n <> None -> spaced n = false).
  { clear. induction sched as [|[i en] r IH]; intros ss d Hd ss' d' e H; cbn [sta_run] in H.
    - injection H as <- <- <-. exact Hd.
    - destruct (nth_error ss i) as [s|]; [|exact (IH ss d Hd ss' d' e H)].
      assert (Fn : spaced (sta_file s) = false).
      { unfold sta_file, diag_file, spaced. rewrite !has_char_app. change (has_char " " (unspace _)) with (spaced (unspace (ts_name (s_loc s) (s_fields s)))).
        rewrite unspace_none. reflexivity. }
      assert (D : forall n, dict_get (snd (fst (sta_evaluate s d en))) n <> None -> spaced n = false).
      { unfold sta_evaluate. destruct (in_window _ _ _); [|exact Hd].
        destruct (cb_evaluate _ _ _ _ _) as [[cb' f'] rr]. cbn [fst snd]. intro n. rewrite dict_get_set.
        destruct (String.eqb_spec n (sta_file s)) as [->|N]; [intros _; exact Fn|apply Hd]. }
      destruct (sta_evaluate s d en) as [[s1 d1] [x|]]; cbn [fst snd] in D.
      + injection H as <- <- <-. exact D.
      + exact (IH _ _ D _ _ _ H). }
  unfold load_scalar. cbn [load_each]. unfold load_one.
  destruct (dict_get d' (obs_file loc v)) as [h|] eqn:E; [|reflexivity]. exfalso.
  assert (Z : spaced (obs_file loc v) = false).
  { apply (K sched ss [] (fun n Hn => False_ind _ (Hn eq_refl)) ss' d' e H). rewrite E. discriminate. }
  unfold obs_file, spaced in Z. rewrite !has_char_app in Z. unfold spaced in Hs. rewrite Hs, orb_true_r in Z. discriminate.
Qed.

(** Nor is a station whose evaluations were all outside its window; there is no file. *)
Theorem C78_nothing_recorded : forall v s es e loc,
  records v s -> s_loc s = loc -> spaced loc = false -> spaced v = false -> recorded s es = [] ->
  forall ss' d', sta_run [s] [] (map (fun e => (0%nat, e)) es) = (ss', d', e) -> load_one d' v loc = LErr NoFile.
Proof.
  intros v s es e loc Hr <- Sl Sv Hk ss' d' H.
  assert (K : forall es, recorded s es = [] -> sta_run [s] [] (map (fun e => (0%nat, e)) es) = ([s], [], None)).
  { destruct Hr as (l & f & x & y & t0 & t1 & log & Es & _ & N0 & N1).
    induction es0 as [|a es0 IH]; intro Z; [reflexivity|]. cbn [recorded filter] in Z. cbn [map sta_run nth_error].
    unfold sta_evaluate. rewrite in_window_b by (rewrite Es; assumption).
    destruct (window_b (cb_start (s_cb s)) (cb_end (s_cb s)) (e_time a)); [discriminate|]. cbn [set_nth]. exact (IH Z). }
  rewrite (K es Hk) in H. injection H as <- <- <-. reflexivity.
Qed.

Definition two_names (n1 n2 : string) (sched : list (nat * entry)) : list sta * disk * option herr :=
  sta_run [new_sta n1 ["elev_2d"] (qz 1) (qz 2) None None false; new_sta n2 ["elev_2d"] (qz 3) (qz 4) None None false] [] sched.
Definition at_ (i : nat) (t q : Z) : nat * entry := (i, mkEntry (qz t) [[qz q]]).

(** Two stations whose names differ only in a space share a file: the second creation
    removes what the first one wrote, and the rest is mixed. *)
Theorem C78_names_collide_refuted : exists n1 n2 sched ss' d',
  n1 <> n2 /\ two_names n1 n2 sched = (ss', d', None) /\
  mine 0 sched = map snd [at_ 0 0 10; at_ 0 1 11] /\ mine 1 sched = map snd [at_ 1 0 20; at_ 1 1 21] /\
  load_scalar d' "elev" [n1] = LOk [([qz 0; qz 1; qz 1], [qz 20; qz 11; qz 21], (qz 3, qz 4))].
Proof.
  exists "a_b", "a b", [at_ 0 0 10; at_ 1 0 20; at_ 0 1 11; at_ 1 1 21].
  destruct (two_names "a_b" "a b" [at_ 0 0 10; at_ 1 0 20; at_ 0 1 11; at_ 1 1 21]) as [[ss' d'] e] eqn:E.
  exists ss', d'. split; [discriminate|].
  assert (e = None) by (vm_compute in E; injection E as <- <- <-; reflexivity). subst e.
  split; [reflexivity|]. split; [reflexivity|]. split; [reflexivity|].
  vm_compute in E. injection E as <- <-. vm_compute. reflexivity.
Qed.

(** A station that records several fields is not found for any of them. *)
Theorem C78_several_fields_refuted : exists ss' d',
  sta_run [new_sta "a" ["elev_2d"; "bathymetry_2d"] (qz 1) (qz 2) None None false] []
    [(0%nat, mkEntry (qz 0) [[qz 5]; [qz 6]])] = (ss', d', None) /\
  map fst d' = ["diagnostic_timeseries_a_elev-bathymetry.hdf5"] /\
  load_scalar d' "elev" ["a"] = LErr NoFile /\ load_scalar d' "bathymetry" ["a"] = LErr NoFile.
Proof.
  destruct (sta_run [new_sta "a" ["elev_2d"; "bathymetry_2d"] (qz 1) (qz 2) None None false] []
    [(0%nat, mkEntry (qz 0) [[qz 5]; [qz 6]])]) as [[ss' d'] e] eqn:E. exists ss', d'.
  vm_compute in E. injection E as <- <- <-. split; [reflexivity|]. split; [reflexivity|]. split; reflexivity.
Qed.

(** Asking for no station is an error. *)
Theorem C78_no_stations : forall d v, load_scalar d v [] = LErr NoStations.
Proof. reflexivity. Qed.

(** The round trip for two stations, one of which starts late. *)
Example C78_round_trip_case :
  let ss := [new_sta "north" ["elev_2d"] (qz 1) (qz 2) None None false;
             new_sta "south_1" ["elev_2d"] (qz 3) (qz 4) (Some (qz 5)) None true] in
  let sched := [at_ 0 0 10; at_ 1 0 20; at_ 1 6 21; at_ 0 6 11] in
  Forall (records "elev") ss /\ Forall (fun s => spaced (s_loc s) = false) ss /\ NoDup (map s_loc ss) /\
  (forall p, In p sched -> exists q, e_vals (snd p) = [[q]]) /\
  (forall n, In n ["south_1"; "north"] -> exists i s, nth_error ss i = Some s /\ s_loc s = n /\ recorded s (mine i sched) <> []) /\
  match sta_run ss [] sched with
  | (_, d, None) => load_scalar d "elev" ["south_1"; "north"] =
      LOk [([qz 6], [qz 21], (qz 3, qz 4)); ([qz 0; qz 6], [qz 10; qz 11], (qz 1, qz 2))]
  | _ => False
  end.
Proof.
  intros ss sched. split; [|split; [|split; [|split; [|split]]]].
  - constructor; [|constructor; [|constructor]]; do 7 eexists; (split; [reflexivity|]); (split; [reflexivity|]); split; discriminate.
  - constructor; [reflexivity|]. constructor; [reflexivity|]. constructor.
  - constructor; [cbn; intros [H|[]]; discriminate H|]. constructor; [intros []|constructor].
  - intros p H. unfold sched in H. cbn [In] in H. repeat (destruct H as [<-|H]; [eexists; reflexivity|]). destruct H.
  - intros n [<-|[<-|[]]]; [exists 1%nat|exists 0%nat]; eexists; (split; [reflexivity|]); (split; [reflexivity|]); vm_compute; discriminate.
  - vm_compute. reflexivity.
Qed.

Print Assumptions C78_round_trip.
