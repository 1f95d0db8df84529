(** Properties of callbacks (C09 - C15). *)
From Coq Require Import String Ascii Sorting.Sorted.
From Verif Require Import Num Exporter_Model Callback_Model Callback_Spec Callback_Proofs Callback_Proofs2 Callback_Proofs3.
Open Scope string_scope.
Open Scope Z_scope.

(** ** C09 *)
Theorem C09_evaluate_last_added_in_order : forall (CB : Type) (name_of : CB -> string) (ops : list (CB * string)) (mode : string),
  let l := cbm_evaluate (cbm_run name_of cbm_new ops) mode in
  StronglySorted (fun a b => str_lt (name_of a) (name_of b)) l /\
  (forall cb, In cb l <-> last_added name_of ops mode cb).
Proof. exact @cbm_evaluate_spec. Qed.

(** ** C10 *)

(** Whatever is requested, also if a request fails half way, the arrays keep equal lengths. *)
Theorem C10_always_rectangular : forall c rs, good_cfg c ->
  exists f0, h5_create c = (f0, None) /\
  exists n, (n <= length rs)%nat /\
    rectangular c (fold_left (fun f r => fst (diag_export c f (fst (fst r)) (snd (fst r)) (snd r))) rs f0) n.
Proof.
  intros c rs G. destruct (create_holds c G) as (f0 & E & H). exists f0. split; [exact E|].
  apply holds_rect in H. cbn [length] in H.
  assert (K : forall rs f n, rectangular c f n ->
    exists m, (m <= n + length rs)%nat /\
      rectangular c (fold_left (fun f r => fst (diag_export c f (fst (fst r)) (snd (fst r)) (snd r))) rs f) m).
  { clear - G. induction rs as [|[[v t] ix] rs IH]; intros f n R.
    - exists n. split; [cbn; lia|exact R].
    - cbn [fold_left fst snd length]. destruct (export_rect c f v t ix n G R) as [R1|R1];
      destruct (IH _ _ R1) as (m & Hm & HR); exists m; (split; [lia|exact HR]). }
  destruct (K rs f0 0%nat H) as (m & Hm & HR). exists m. auto.
Qed.

(** The file holds the last values written at each index. *)
Theorem C10_contents : forall c rs f L, good_cfg c -> Forall (fun r => complete c (fst r)) rs ->
  Forall (fun r => match snd r with Some i => 0 <= i | None => True end) rs -> holds c f L ->
  holds c (run_exports c f rs) (fold_left (fun L r => spec_export L (fst r) (snd r)) rs L).
Proof. exact run_exports_holds. Qed.

(** One request: it succeeds exactly if the index means a position of the record,
    and a request beyond the end leaves the file as it was. *)
Theorem C10_single_export : forall c f L e index, good_cfg c -> complete c e -> holds c f L ->
  let r := diag_export c f (Tuple (map Some (e_vals e))) (Some (e_time e)) index in
  (snd r = None <-> position index (length L) <> None) /\
  (forall p, position index (length L) = Some p -> holds c (fst r) (put L p e)) /\
  (forall i, index = Some i -> Z.of_nat (length L) < i -> fst r = f /\ snd r = Some EAssert).
Proof.
  intros c f L e index G C H r. pose proof (export_holds c f L e index G C H) as K. fold r in K.
  split; [|split].
  - destruct (position index (length L)) as [p|].
    + destruct K as (f' & E & _). rewrite E. cbn. split; [discriminate|reflexivity].
    + destruct K as (err & E & _). rewrite E. split; congruence.
  - intros p Hp. rewrite Hp in K. destruct K as (f' & E & H'). now rewrite E.
  - intros i -> Hi. unfold r, diag_export. rewrite (nentries_rect c f _ G (holds_rect c f L H)).
    destruct (Z.ltb_spec (Z.of_nat (length L)) i); [split; reflexivity|lia].
Qed.

(** A rejected append is not harmless: without a time stamp a zero row stays behind. *)
Theorem C10_failed_append_unchanged_refuted :
  exists c f v, good_cfg c /\ holds c f [] /\
    snd (diag_export c f v None None) = Some EAssert /\
    fst (diag_export c f v None None) "val" = Some [[qz 0]].
Proof.
  exists (mkCfg ["val"] true 1), (h5_upd (h5_upd (fun _ => None) "time" []) "val" []), (Tuple [Some [qz 5]]).
  split; [split; [discriminate|repeat constructor; cbn; intuition discriminate]|].
  split; [split; [intros [|j] d Hd; [inversion Hd; reflexivity|destruct j; discriminate]|reflexivity]|].
  split; reflexivity.
Qed.

(** Two fields with the same leading part of the name cannot be recorded by one
    station callback: the data set is created twice. *)
Theorem C10_station_variable_names_refuted :
  exists f1 f2, f1 <> f2 /\
    snd (h5_create (mkCfg (map before_underscore [f1; f2]) true 1)) = Some EValue.
Proof. exists "uv_3d", "uv_dav_3d". split; [discriminate|reflexivity]. Qed.
(** In general creation succeeds exactly for distinct names. *)
Theorem C10_creation_succeeds_iff_names_distinct : forall c, snd (h5_create c) = None <-> NoDup (dataset_names c).
Proof.
  intros c. split.
  - intros H. destruct (ListDec.NoDup_dec string_dec (dataset_names c)) as [|N]; [assumption|].
    unfold h5_create in H. rewrite create_datasets_dup in H by exact N. discriminate.
  - intros H. destruct (create_datasets_ok (dataset_names c) (fun _ => None) H) as (f & E & _); [reflexivity|].
    unfold h5_create. now rewrite E.
Qed.

(** ** C11 *)
Theorem C11_window : forall start_time end_time t, nonzero_bound start_time -> nonzero_bound end_time ->
  in_window start_time end_time t = true <-> window start_time end_time t.
Proof. intros. rewrite in_window_b by assumption. apply window_b_spec. Qed.
(** A bound equal to 0 is ignored. *)
Theorem C11_zero_bound_refuted :
  (forall t s, in_window s (Some (qz 0)) t = in_window s None t) /\
  (forall t e, in_window (Some (qz 0)) e t = in_window None e t) /\
  (exists t, in_window None (Some (qz 0)) t = true /\ ~ window None (Some (qz 0)) t) /\
  (exists t, in_window (Some (qz 0)) None t = true /\ ~ window (Some (qz 0)) None t).
Proof.
  repeat split.
  - exists (qz 1). split; [reflexivity|]. intros [_ H]. specialize (H _ eq_refl). apply (proj1 (qz_le _ _)) in H. lia.
  - exists (qz (-1)). split; [reflexivity|]. intros [H _]. specialize (H _ eq_refl). apply (proj1 (qz_le _ _)) in H. lia.
Qed.

(** The record of a callback that appends (2D solver): exactly the evaluations in its window, in order. *)
Theorem C11_record_of_appending_callback : forall cb f es,
  fresh cb -> good_cfg (cb_cfg cb) -> nonzero_bound (cb_start cb) -> nonzero_bound (cb_end cb) ->
  Forall (complete (cb_cfg cb)) es ->
  let kept := filter (fun e => window_b (cb_start cb) (cb_end cb) (e_time e)) es in
  exists cb' f', run_callback cb f (appends es) = (cb', f', None) /\
    (kept = [] -> f' = f) /\ (kept <> [] -> holds (cb_cfg cb) f' kept).
Proof.
  intros cb f es (H1 & H2 & H3) G Ns Ne C kept.
  assert (E : kept = filter (accepts cb) es).
  { unfold kept. apply filter_ext. intros e. unfold accepts. now rewrite in_window_b. }
  rewrite E. now apply run_fresh.
Qed.
(** Appending after a restart keeps the earlier record. *)
Theorem C11_resumed_callback_keeps_record : forall cb f es L,
  resumed cb -> good_cfg (cb_cfg cb) -> nonzero_bound (cb_start cb) -> nonzero_bound (cb_end cb) ->
  Forall (complete (cb_cfg cb)) es -> holds (cb_cfg cb) f L ->
  exists cb' f', run_callback cb f (appends es) = (cb', f', None) /\
    holds (cb_cfg cb) f' (L ++ filter (fun e => window_b (cb_start cb) (cb_end cb) (e_time e)) es)%list.
Proof.
  intros cb f es L (H1 & H2 & H3) G Ns Ne C H.
  assert (E : filter (fun e => window_b (cb_start cb) (cb_end cb) (e_time e)) es = filter (accepts cb) es).
  { apply filter_ext. intros e. unfold accepts. now rewrite in_window_b. }
  rewrite E. clear E Ns Ne. induction es as [|e es IH].
  - exists cb, f. cbn. rewrite app_nil_r. auto.
  - inversion C; subst. cbn [appends map run_callback filter]. destruct (accepts cb e) eqn:W.
    + assert (Eq : cb_evaluate cb f (e_time e) (Tuple (map Some (e_vals e))) None =
                   cb_evaluate (cb_initialised cb) f (e_time e) (Tuple (map Some (e_vals e))) None).
      { unfold accepts in W. unfold cb_evaluate. cbn [cb_initialised cb_start cb_end cb_log cb_hdf5]. rewrite W, H1, !andb_false_r.
        unfold push_to_hdf5. cbn [cb_initialised cb_init cb_create cb_cfg]. rewrite H2, H3. reflexivity. }
      rewrite Eq. destruct (run_open (e :: es) (cb_initialised cb) f L) as (f2 & E2 & H2'); auto.
      exists (cb_initialised cb), f2. cbn [appends map run_callback] in E2. split; [exact E2|].
      cbn [filter] in H2'. change (accepts (cb_initialised cb)) with (accepts cb) in H2'. rewrite W in H2'. exact H2'.
    + rewrite evaluate_skip by exact W. now apply IH.
Qed.
(** The write mode selects between the two. *)
Theorem C11_write_mode : forall cb f es L,
  cb_hdf5 cb = true -> cb_init cb = false -> good_cfg (cb_cfg cb) -> nonzero_bound (cb_start cb) -> nonzero_bound (cb_end cb) ->
  Forall (complete (cb_cfg cb)) es -> holds (cb_cfg cb) f L ->
  let kept := filter (fun e => window_b (cb_start cb) (cb_end cb) (e_time e)) es in
  (exists cb' f', run_callback (set_write_mode cb true) f (appends es) = (cb', f', None) /\ holds (cb_cfg cb) f' (L ++ kept)%list) /\
  (exists cb' f', run_callback (set_write_mode cb false) f (appends es) = (cb', f', None) /\ (kept <> [] -> holds (cb_cfg cb) f' kept)).
Proof.
  intros cb f es L H1 H2 G Ns Ne C H kept. split.
  - exact (C11_resumed_callback_keeps_record (set_write_mode cb true) f es L (conj H1 (conj H2 eq_refl)) G Ns Ne C H).
  - destruct (C11_record_of_appending_callback (set_write_mode cb false) f es (conj H1 (conj H2 eq_refl)) G Ns Ne C) as (cb' & f' & E & _ & K).
    exists cb', f'. split; [exact E|exact K].
Qed.
(** 3D solver: evaluations carry the export index; restarting at index [k0] replaces
    the record from [k0] on and keeps what lies before. *)
Theorem C11_indexed_record : forall cb f es L k0,
  cb_hdf5 cb = true -> cb_init cb = true -> good_cfg (cb_cfg cb) ->
  Forall (complete (cb_cfg cb)) es -> Forall (fun e => in_window (cb_start cb) (cb_end cb) (e_time e) = true) es ->
  holds (cb_cfg cb) f L -> (k0 <= length L)%nat ->
  exists f', run_callback cb f (indexed k0 es) = (cb, f', None) /\
    holds (cb_cfg cb) f' (firstn k0 L ++ es ++ skipn (k0 + length es) L)%list.
Proof. intros. now apply run_indexed. Qed.
(** A start time after the first export makes the 3D solver's evaluation fail. *)
Theorem C11_late_start_indexed_refuted : forall cb f e1 e2 s,
  fresh cb -> good_cfg (cb_cfg cb) -> cb_start cb = Some s -> cb_end cb = None ->
  (s <> qz 0) -> (e_time e1 < s)%Qc -> (s <= e_time e2)%Qc ->
  snd (run_callback cb f (indexed 0 [e1; e2])) = Some EAssert.
Proof.
  intros cb f e1 e2 s (H1 & H2 & H3) G Hs He Nz T1 T2.
  assert (Ns : nonzero_bound (cb_start cb)) by (unfold nonzero_bound; rewrite Hs; congruence).
  assert (Ne : nonzero_bound (cb_end cb)) by (unfold nonzero_bound; rewrite He; discriminate).
  cbn [indexed run_callback]. rewrite evaluate_skip.
  2: { unfold accepts. rewrite in_window_b by assumption. rewrite Hs. unfold window_b.
       destruct (Qcleb_spec s (e_time e1)); [exfalso; qc|reflexivity]. }
  assert (W : in_window (cb_start cb) (cb_end cb) (e_time e2) = true).
  { rewrite in_window_b by assumption. rewrite Hs, He. unfold window_b.
    destruct (Qcleb_spec s (e_time e2)); [reflexivity|exfalso; qc]. }
  unfold cb_evaluate. rewrite W, andb_false_r, H1. unfold push_to_hdf5. rewrite H2, H3.
  destruct (create_holds (cb_cfg cb) G) as (f0 & E0 & H0). rewrite E0.
  change (cb_cfg (cb_initialised cb)) with (cb_cfg cb). unfold diag_export. rewrite (nentries_rect _ _ _ G (holds_rect _ _ _ H0)). reflexivity.
Qed.
(** Append mode without an existing file fails (3D restart into another output directory). *)
Theorem C11_append_without_file_refuted : forall cb e, resumed cb -> good_cfg (cb_cfg cb) ->
  in_window (cb_start cb) (cb_end cb) (e_time e) = true ->
  snd (run_callback cb (fun _ => None) [(e, None)]) = Some EKey /\
  snd (run_callback cb (fun _ => None) [(e, Some 3)]) = Some EKey.
Proof.
  intros cb e (H1 & H2 & H3) [Gv _] W.
  cbn [run_callback]. unfold cb_evaluate. rewrite W, andb_false_r, H1. unfold push_to_hdf5. rewrite H2, H3.
  unfold diag_export, nentries, h5_append, expand. change (cb_cfg (cb_initialised cb)) with (cb_cfg cb).
  destruct (hc_vars (cb_cfg cb)) as [|d r] eqn:E; [congruence|]. split; reflexivity.
Qed.
(** A 2D restart recreates the file: the earlier record is lost. *)
Theorem C11_restart_2d_loses_record_refuted : forall cb f L e,
  fresh cb -> good_cfg (cb_cfg cb) -> complete (cb_cfg cb) e -> holds (cb_cfg cb) f L ->
  in_window (cb_start cb) (cb_end cb) (e_time e) = true ->
  exists cb' f', run_callback cb f [(e, None)] = (cb', f', None) /\ holds (cb_cfg cb) f' [e].
Proof.
  intros cb f L e (H1 & H2 & H3) G C H W.
  destruct (evaluate_first cb f e None G C H1 H2 H3 W (or_introl eq_refl)) as (f' & E & H').
  exists (cb_initialised cb), f'. cbn [run_callback]. rewrite E. auto.
Qed.

(** ** C12 *)
Theorem C12_relative_change : forall v0 vs, v0 <> qz 0 ->
  run_obs scalar_conservation None (v0 :: vs) =
    Some (v0, qz 0) :: map (fun v => Some (v, (v - v0) / v0)%Qc) vs.
Proof.
  intros v0 vs H. cbn [run_obs scalar_conservation]. destruct (Qceqb_spec v0 (qz 0)) as [|N]; [contradiction|].
  rewrite scalar_run by exact H. do 3 f_equal. unfold Qcdiv. rewrite qz_0. ring.
Qed.
(** Zero initial value (for instance a tracer that is not there yet): no result at any time. *)
Theorem C12_zero_initial_value_refuted : forall vs,
  run_obs scalar_conservation None (qz 0 :: vs) = repeat None (S (length vs)).
Proof.
  intros vs. cbn [run_obs scalar_conservation repeat length]. destruct (Qceqb_spec (qz 0) (qz 0)); [|congruence].
  f_equal. induction vs as [|v vs IH]; [reflexivity|]. cbn [run_obs scalar_conservation repeat length].
  destruct (Qceqb_spec (qz 0) (qz 0)); [|congruence]. now rewrite IH.
Qed.
Theorem C12_overshoots : forall lo hi vs i a b u o,
  nth_error (run_obs minmax_conservation None ((lo, hi) :: vs)) i = Some (a, b, u, o) ->
  nth_error ((lo, hi) :: vs) i = Some (a, b) /\
  (0 <= o)%Qc /\ (u <= 0)%Qc /\
  ((0 < o)%Qc <-> (hi < b)%Qc) /\ ((u < 0)%Qc <-> (a < lo)%Qc) /\
  ((hi <= b)%Qc -> o = (b - hi)%Qc) /\ ((a <= lo)%Qc -> u = (a - lo)%Qc).
Proof.
  intros lo hi vs i a b u o H.
  assert (E : run_obs minmax_conservation None ((lo, hi) :: vs) = run_obs minmax_conservation (Some (lo, hi)) ((lo, hi) :: vs)) by reflexivity.
  rewrite E, minmax_run in H. rewrite nth_error_map in H.
  destruct (nth_error ((lo, hi) :: vs) i) as [[a' b']|]; [|discriminate]. cbn [option_map fst snd] in H.
  assert (Ha : a' = a) by congruence. assert (Hb : b' = b) by congruence.
  assert (Hu : qmin (a' - lo)%Qc (qz 0) = u) by congruence. assert (Ho : qmax (b' - hi)%Qc (qz 0) = o) by congruence.
  subst a' b'. rewrite <- Hu, <- Ho. clear. unfold qmin, qmax. rewrite qz_0.
  split; [reflexivity|].
  destruct (Qcleb_spec (b - hi)%Qc 0), (Qcleb_spec (a - lo)%Qc 0); repeat split; intros; try qc; try reflexivity;
  apply qc_eq_iff; qc.
Qed.
(** The extrema reported are those over all processes. *)
Theorem C12_global_extrema : forall p ps,
  let all := flat_map (fun q : Qc * list Qc => fst q :: snd q) (p :: ps) in
  In (fst (global_minmax p ps)) all /\ In (snd (global_minmax p ps)) all /\
  (forall x, In x all -> (fst (global_minmax p ps) <= x /\ x <= snd (global_minmax p ps))%Qc).
Proof.
  intros p ps all. unfold global_minmax. cbn [fst snd].
  destruct (fold_min_spec (map local_min ps) (local_min p)) as [m1 m2].
  destruct (fold_max_spec (map local_max ps) (local_max p)) as [M1 M2].
  change (local_min p :: map local_min ps) with (map local_min (p :: ps)) in *.
  change (local_max p :: map local_max ps) with (map local_max (p :: ps)) in *.
  split; [|split].
  - apply in_map_iff in m1. destruct m1 as (q & Hq & Hin). rewrite <- Hq. apply in_flat_map. exists q. split; [exact Hin|].
    apply (fold_min_spec (snd q) (fst q)).
  - apply in_map_iff in M1. destruct M1 as (q & Hq & Hin). rewrite <- Hq. apply in_flat_map. exists q. split; [exact Hin|].
    apply (fold_max_spec (snd q) (fst q)).
  - intros x Hx. apply in_flat_map in Hx. destruct Hx as (q & Hin & Hx). split.
    + eapply Qcle_trans; [apply m2; apply in_map; exact Hin|]. now apply (fold_min_spec (snd q) (fst q)).
    + eapply Qcle_trans; [|apply M2; apply in_map; exact Hin]. now apply (fold_max_spec (snd q) (fst q)).
Qed.

(** ** C13 *)
Theorem C13_trapezium : forall dt vs, a_integrant (acc_run (acc_new dt) vs) = trapezium dt vs.
Proof. intros. apply acc_value. Qed.
(** hence exact for a quantity that is linear in time, sampled at every step *)
Theorem C13_exact_for_linear : forall dt a b n,
  a_integrant (acc_run (acc_new dt) (map (fun i => a + b * (qn i * dt)) (seq 0 (S n)))%Qc) =
    (a * (qn n * dt) + b * (qn n * dt) * (qn n * dt) / qz 2)%Qc.
Proof.
  intros dt a b n. rewrite acc_value.
  assert (T : (qz 2 <> 0)%Qc) by (intros X; rewrite <- qz_0 in X; apply qz_inj in X; discriminate).
  assert (K : forall n k, trapezium dt (map (fun i => a + b * (qn i * dt)) (seq k (S n)))%Qc =
    (a * (qn n * dt) + b * dt * dt * ((qn n * qn k) + qn n * qn n / qz 2))%Qc).
  { clear n. induction n as [|n IH]; intros k.
    - cbn [seq map trapezium]. rewrite qn_0, qz_0. unfold Qcdiv. ring.
    - change (seq k (S (S n))) with (k :: seq (S k) (S n)). cbn [map].
      change (seq (S k) (S n)) with (S k :: seq (S (S k)) n) at 1. cbn [map].
      change (trapezium dt ((a + b * (qn k * dt)) :: (a + b * (qn (S k) * dt)) :: map (fun i => a + b * (qn i * dt)) (seq (S (S k)) n))%Qc)
        with (dt * (((a + b * (qn k * dt)) + (a + b * (qn (S k) * dt))) / qz 2) + trapezium dt (map (fun i => a + b * (qn i * dt)) (seq (S k) (S n))))%Qc.
      rewrite IH, !qn_S. 
      assert (E2 : qz 2 = (1 + 1)%Qc) by (apply qc_eq_iff; reflexivity). rewrite E2 in *. field. exact T. }
  rewrite K, qn_0. field. exact T.
Qed.
(** Registered under 'export' the samples are export intervals apart but the model time step is used. *)
Theorem C13_export_mode_refuted : forall dt k v, dt <> 0%Qc -> (1 < k)%nat -> v <> 0%Qc ->
  a_integrant (acc_run (acc_new dt) [v; v]) <> (v * (qn k * dt))%Qc.
Proof.
  intros dt k v Hd Hk Hv. rewrite acc_value. cbn [trapezium]. intros E.
  assert (T : (qz 2 <> 0)%Qc) by (intros X; rewrite <- qz_0 in X; apply qz_inj in X; discriminate).
  assert (E1 : (dt * ((v + v) / qz 2) + qz 0 = dt * v)%Qc).
  { assert (E2 : qz 2 = (1 + 1)%Qc) by (apply qc_eq_iff; reflexivity). rewrite E2 in *. rewrite qz_0. field. exact T. }
  rewrite E1 in E. assert (E3 : ((qn k - 1) * (dt * v) = 0)%Qc).
  { assert (X : ((qn k - 1) * (dt * v) = v * (qn k * dt) - dt * v)%Qc) by ring. rewrite X, <- E. ring. }
  apply Qcmult_integral in E3. destruct E3 as [E3|E3].
  - assert (qn k = qn 1).
    { assert (X : qn 1 = 1%Qc) by (apply qc_eq_iff; reflexivity). rewrite X.
      assert (Y : (qn k = (qn k - 1) + 1)%Qc) by ring. rewrite Y, E3. ring. }
    apply qz_inj in H. lia.
  - apply Qcmult_integral in E3. tauto.
Qed.
(** With logging or storing switched on, the accumulator's scalar result cannot be
    reported: the evaluation raises TypeError. *)
Theorem C13_accumulator_reporting_refuted : forall cb f t v s,
  in_window (cb_start cb) (cb_end cb) t = true -> cb_log cb = true ->
  snd (cb_evaluate cb f t (snd (acc_call s v)) None) = Some EType.
Proof. intros cb f t v s W H. unfold cb_evaluate. rewrite W, H. reflexivity. Qed.

(** ** C14 *)
Theorem C14_rows_split_back : forall (A : Type) ndet (fields : list (nat -> list A)) dims d,
  (forall f dim, In (f, dim) (combine fields dims) -> forall d, (d < ndet)%nat -> length (f d) = dim) ->
  length dims = length fields -> (d < ndet)%nat ->
  exists r, nth_error (detector_rows ndet fields) d = Some r /\
    values_per_field dims r = map (fun f => f d) fields /\ length r = list_sum dims.
Proof.
  intros A ndet fields dims d H Hl Hd. exists (detector_row fields d).
  assert (M : map (@length A) (map (fun f => f d) fields) = dims).
  { clear - H Hl Hd. revert dims H Hl. induction fields as [|f fields IH]; intros [|dim dims] H Hl; try discriminate; [reflexivity|].
    cbn [map]. f_equal.
    - apply H; [now left|exact Hd].
    - apply IH; [|now inversion Hl]. intros g e Hin. apply H. now right. }
  split; [|split].
  - unfold detector_rows. rewrite nth_error_map.
    rewrite (nth_error_nth' (seq 0 ndet) 0%nat) by (rewrite seq_length; exact Hd). rewrite seq_nth by exact Hd. reflexivity.
  - unfold detector_row. rewrite <- M. apply values_per_field_concat.
  - unfold detector_row. rewrite <- M. clear. induction (map (fun f => f d) fields) as [|x l IH]; [reflexivity|].
    cbn [concat map list_sum fold_right]. rewrite app_length, IH. reflexivity.
Qed.
Theorem C14_names_distinct : forall n, NoDup (detector_names n) /\ length (detector_names n) = n.
Proof.
  intros n. split; [|unfold detector_names; now rewrite map_length, seq_length].
  unfold detector_names. apply FinFun.Injective_map_NoDup; [|apply seq_NoDup].
  intros i j. apply detector_name_inj.
Qed.
(** values of a transect belong to the points they are stored with *)
Theorem C14_transect_values : forall (P A : Type) (at_ : P -> A) points nz nxy,
  length points = nz -> Forall (fun r => length r = nxy) points ->
  transect_values at_ points nz nxy = map (map at_) points.
Proof.
  intros P A at_ points nz nxy <- H. unfold transect_values. rewrite concat_map.
  rewrite <- (map_length (map at_)). apply reshape_concat.
  apply Forall_map. eapply Forall_impl; [|exact H]. intros r Hr. now rewrite map_length.
Qed.

(** ** C15 *)
Theorem C15_profile : forall depth elev n, (2 <= n)%nat ->
  let z := profile_z depth elev n in
  z 0%nat = (elev - qq 1 100)%Qc /\ z (n - 1)%nat = (- depth + qq 1 100)%Qc /\
  ((qq 2 100 < depth + elev)%Qc ->
     (forall i j, (i < j)%nat -> (j < n)%nat -> (z j < z i)%Qc) /\
     (forall i, (i < n)%nat -> (- depth < z i /\ z i < elev)%Qc)).
Proof.
  intros depth elev n Hn z. unfold z. split; [|split].
  - rewrite profile_linspace. apply linspace_first.
  - rewrite profile_linspace, linspace_last by exact Hn. ring.
  - intros H. assert (E : qq 2 100 = (qq 1 100 + qq 1 100)%Qc) by (apply qc_eq_iff; reflexivity). rewrite E in H.
    assert (P : (0 < qq 1 100)%Qc) by reflexivity.
    set (eps := qq 1 100) in *. split.
    + intros i j Hij _. rewrite !profile_linspace. fold eps. apply linspace_decr; [qc|exact Hn|exact Hij].
    + intros i Hi. rewrite profile_linspace. fold eps.
      destruct (linspace_between (elev - eps)%Qc (- (depth - eps))%Qc n i) as [L1 L2]; [qc|exact Hi|]. split; qc.
Qed.
(** Shallow water: the nudged levels leave the water column. *)
Theorem C15_profile_shallow_refuted : exists depth elev, (0 < depth + elev)%Qc /\
  forall n, (profile_z depth elev n 0 < - depth)%Qc.
Proof.
  exists (qq 1 1000), (qz 0). split; [reflexivity|]. intros n. rewrite profile_linspace, linspace_first. reflexivity.
Qed.
Theorem C15_transect : forall depth elev force_min force_max n k, (k < n)%nat ->
  (qq 2 100000 < depth + elev)%Qc ->
  (forall m, force_min = Some m -> (m < elev - qq 1 100000)%Qc) ->
  (forall m, force_max = Some m -> (- depth + qq 1 100000 < m)%Qc) ->
  (forall a b, force_min = Some a -> force_max = Some b -> (a < b)%Qc) ->
  let z := transect_z depth elev force_min force_max n in
  (- depth < z k /\ z k < elev)%Qc /\
  (forall m, force_min = Some m -> m <= z k)%Qc /\ (forall m, force_max = Some m -> z k <= m)%Qc /\
  ((S k < n)%nat -> (z (S k) < z k)%Qc).
Proof.
  intros depth elev force_min force_max n k Hk HD H1 H2 H3 z. unfold z, transect_z.
  assert (E : qq 2 100000 = (qq 1 100000 + qq 1 100000)%Qc) by (apply qc_eq_iff; reflexivity). rewrite E in HD.
  assert (P : (0 < qq 1 100000)%Qc) by reflexivity.
  unfold transect_bounds. set (eps := qq 1 100000) in *.
  set (zmin := match force_min with Some m => qmax (- (depth - eps))%Qc m | None => (- (depth - eps))%Qc end).
  set (zmax := match force_max with Some m => qmin (elev - eps)%Qc m | None => (elev - eps)%Qc end).
  assert (A1 : (- depth + eps <= zmin)%Qc) by (unfold zmin, qmax; destruct force_min; [destruct (Qcleb_spec (- (depth - eps))%Qc q)|]; qc).
  assert (A2 : (zmax <= elev - eps)%Qc) by (unfold zmax, qmin; destruct force_max; [destruct (Qcleb_spec (elev - eps)%Qc q)|]; qc).
  assert (A3 : (zmin < zmax)%Qc).
  { unfold zmin, zmax, qmin, qmax. destruct force_min as [a|], force_max as [b|].
    - specialize (H1 _ eq_refl). specialize (H2 _ eq_refl). specialize (H3 _ _ eq_refl eq_refl).
      destruct (Qcleb_spec (- (depth - eps))%Qc a), (Qcleb_spec (elev - eps)%Qc b); qc.
    - specialize (H1 _ eq_refl). destruct (Qcleb_spec (- (depth - eps))%Qc a); qc.
    - specialize (H2 _ eq_refl). destruct (Qcleb_spec (elev - eps)%Qc b); qc.
    - qc. }
  destruct (linspace_between zmax zmin n k) as [L1 L2]; [qc|exact Hk|].
  split; [split; qc|]. split; [|split].
  - intros m ->. eapply Qcle_trans; [|exact L1]. unfold zmin, qmax. destruct (Qcleb_spec (- (depth - eps))%Qc m); qc.
  - intros m ->. eapply Qcle_trans; [exact L2|]. unfold zmax, qmin. destruct (Qcleb_spec (elev - eps)%Qc m); qc.
  - intros Hs. apply linspace_decr; [exact A3|lia|lia].
Qed.
(** A forced maximum below the bed puts the top of the transect below the bed. *)
Theorem C15_transect_forced_range_refuted : forall depth elev m n, (m < - depth)%Qc -> (0 < depth + elev - qq 1 100000)%Qc ->
  (transect_z depth elev None (Some m) n 0 < - depth)%Qc.
Proof.
  intros depth elev m n H1 H2. unfold transect_z, transect_bounds. rewrite linspace_first. unfold qmin.
  destruct (Qcleb_spec (elev - qq 1 100000)%Qc m); [exfalso; set (eps := qq 1 100000) in *; qc|exact H1].
Qed.
Theorem C15_station_height : forall bath elev z, (qq 1 10 <= bath + elev)%Qc -> (z <= elev)%Qc ->
  (- bath <= timeseries_z bath z /\ timeseries_z bath z <= elev)%Qc.
Proof.
  intros bath elev z H1 H2. unfold timeseries_z. assert (P : (0 < qq 1 10)%Qc) by reflexivity.
  set (d := qq 1 10) in *. destruct (Qcltb_spec z (- bath)%Qc); split; qc.
Qed.
(** not so in very shallow water, or for a height above the surface *)
Theorem C15_station_height_refuted :
  (exists bath elev z, (0 < bath + elev)%Qc /\ (z <= elev)%Qc /\ (elev < timeseries_z bath z)%Qc) /\
  (forall bath elev z, (0 < bath + elev)%Qc -> (elev < z)%Qc -> (elev < timeseries_z bath z)%Qc).
Proof.
  split.
  - exists (qq 1 20), (qz 0), (qz (-1)). repeat split; reflexivity || (intros X; discriminate).
  - intros bath elev z H1 H2. unfold timeseries_z. destruct (Qcltb_spec z (- bath)%Qc); [exfalso; qc|exact H2].
Qed.

(** ** Instances *)
Example C09_case :
  cbm_evaluate (cbm_run fst cbm_new [(("b", 1%nat), "export"); (("a", 2%nat), "export"); (("a", 3%nat), "timestep"); (("b", 4%nat), "export")]) "export"
  = [("a", 2%nat); ("b", 4%nat)].
Proof. reflexivity. Qed.
Definition case_cfg := mkCfg ["elev"; "uv"] true 1.
Example C10_case : good_cfg case_cfg /\ complete case_cfg (mkEntry (qz 3) [[qz 1]; [qz 2]]) /\
  position (Some 2) 2 = Some 2%nat /\ position (Some 3) 2 = None /\ position (Some (-1)) 2 = Some 1%nat.
Proof. split; [split; [discriminate|repeat constructor; cbn; intuition discriminate]|]. repeat split. Qed.
Example C11_case :
  let cb := mkCb case_cfg true true (Some (qz 5)) (Some (qz 10)) true false in
  let es := map (fun t => mkEntry (qz t) [[qz t]; [qz 0]]) [0; 5; 7; 11] in
  fresh cb /\ nonzero_bound (cb_start cb) /\ nonzero_bound (cb_end cb) /\ Forall (complete (cb_cfg cb)) es /\
  List.length (filter (fun e => window_b (cb_start cb) (cb_end cb) (e_time e)) es) = 2%nat.
Proof.
  repeat split; try (cbn; intros X; apply (f_equal (fun o => match o with Some x => Qceqb x (qz 0) | None => false end)) in X; discriminate X).
  repeat constructor.
Qed.
Example C14_case : detector_name 12 3 = "detector03" /\ detector_name 100 12 = "detector012" /\
  values_per_field [1; 2]%nat [10; 11; 12]%nat = [[10]; [11; 12]]%nat.
Proof. repeat split. Qed.
Print Assumptions C09_evaluate_last_added_in_order.
Print Assumptions C10_always_rectangular.
Print Assumptions C10_contents.
Print Assumptions C10_single_export.
Print Assumptions C10_failed_append_unchanged_refuted.
Print Assumptions C10_station_variable_names_refuted.
Print Assumptions C10_creation_succeeds_iff_names_distinct.
Print Assumptions C11_window.
Print Assumptions C11_zero_bound_refuted.
Print Assumptions C11_record_of_appending_callback.
Print Assumptions C11_resumed_callback_keeps_record.
Print Assumptions C11_write_mode.
Print Assumptions C11_indexed_record.
Print Assumptions C11_late_start_indexed_refuted.
Print Assumptions C11_append_without_file_refuted.
Print Assumptions C11_restart_2d_loses_record_refuted.
Print Assumptions C12_relative_change.
Print Assumptions C12_zero_initial_value_refuted.
Print Assumptions C12_overshoots.
Print Assumptions C12_global_extrema.
Print Assumptions C13_trapezium.
Print Assumptions C13_exact_for_linear.
Print Assumptions C13_export_mode_refuted.
Print Assumptions C13_accumulator_reporting_refuted.
Print Assumptions C14_rows_split_back.
Print Assumptions C14_names_distinct.
Print Assumptions C14_transect_values.
Print Assumptions C15_profile.
Print Assumptions C15_profile_shallow_refuted.
Print Assumptions C15_transect.
Print Assumptions C15_transect_forced_range_refuted.
Print Assumptions C15_station_height.
Print Assumptions C15_station_height_refuted.
