From Coq Require Import String Ascii DecimalString DecimalNat DecimalN DecimalFacts DecimalPos.
From Verif Require Import Num Exporter_Model Exporter_Spec.
Open Scope string_scope.
Open Scope Z_scope.

(** *** strings *)
Lemma sapp_assoc a b c : (a ++ b) ++ c = a ++ (b ++ c).
Proof. induction a as [|x a IH]; simpl; [reflexivity|now rewrite IH]. Qed.
Lemma sapp_inj_l a b c : a ++ b = a ++ c -> b = c.
Proof. induction a as [|x a IH]; simpl; intros H; [exact H|inversion H; auto]. Qed.
Lemma slength_app a b : String.length (a ++ b) = (String.length a + String.length b)%nat.
Proof. induction a as [|x a IH]; simpl; [reflexivity|now rewrite IH]. Qed.
Lemma sapp_nil_r a : a ++ "" = a.
Proof. induction a as [|x a IH]; simpl; [reflexivity|now rewrite IH]. Qed.
Lemma sapp_inj_r a b c : a ++ c = b ++ c -> a = b.
Proof.
  revert b. induction a as [|x a IH]; intros [|y b] H; simpl in *; auto.
  - exfalso. assert (String.length c = String.length (String y (b ++ c))) by now rewrite <- H.
    simpl in H0. rewrite slength_app in H0. lia.
  - exfalso. assert (String.length (String x (a ++ c)) = String.length c) by now rewrite H.
    simpl in H0. rewrite slength_app in H0. lia.
  - inversion H; subst. f_equal. auto.
Qed.

(** [c] does not occur in [s] *)
Fixpoint absent (c : ascii) (s : string) : Prop :=
  match s with EmptyString => True | String x r => x <> c /\ absent c r end.
Lemma absent_app c a b : absent c (a ++ b) <-> absent c a /\ absent c b.
Proof. induction a as [|x a IH]; simpl; [tauto|]. rewrite IH. tauto. Qed.

Lemma last_sep c p1 p2 d1 d2 : absent c d1 -> absent c d2 ->
  p1 ++ String c d1 = p2 ++ String c d2 -> p1 = p2 /\ d1 = d2.
Proof.
  revert p2. induction p1 as [|x p1 IH]; intros [|y p2] H1 H2 H; simpl in *.
  - inversion H. auto.
  - inversion H; subst. apply absent_app in H1. destruct H1 as [_ [H1 _]]. congruence.
  - inversion H; subst. apply absent_app in H2. destruct H2 as [_ [H2 _]]. congruence.
  - inversion H; subst. destruct (IH p2 H1 H2 H4) as [-> ->]. auto.
Qed.

(** *** decimal numbers *)
Lemma absent_uint c d : (c <> "0" -> c <> "1" -> c <> "2" -> c <> "3" -> c <> "4" -> c <> "5" ->
  c <> "6" -> c <> "7" -> c <> "8" -> c <> "9" -> absent c (NilEmpty.string_of_uint d))%char.
Proof. intros. induction d; simpl; repeat split; auto; congruence. Qed.
Lemma absent_zeros c n : (c <> "0")%char -> absent c (zeros n).
Proof. intros H. induction n; simpl; auto. Qed.
Lemma absent_zpad c w n : (c <> "0" -> c <> "1" -> c <> "2" -> c <> "3" -> c <> "4" -> c <> "5" ->
  c <> "6" -> c <> "7" -> c <> "8" -> c <> "9" -> absent c (zpad w (dec n)))%char.
Proof.
  intros. unfold zpad. apply absent_app. split; [now apply absent_zeros|].
  unfold dec. now apply absent_uint.
Qed.

Definition undec (s : string) : option N := option_map N.of_uint (NilEmpty.uint_of_string s).
Lemma undec_dec n : undec (dec n) = Some n.
Proof. unfold undec, dec. rewrite NilEmpty.usu. simpl. now rewrite DecimalN.Unsigned.of_to. Qed.
Lemma undec_zeros k s n : undec s = Some n -> undec (zeros k ++ s) = Some n.
Proof.
  intros H. induction k as [|k IH]; [exact H|]. simpl. unfold undec in *. simpl.
  destruct (NilEmpty.uint_of_string (zeros k ++ s)) as [d|]; [|discriminate]. simpl in *. exact IH.
Qed.
Lemma undec_zpad w n : undec (zpad w (dec n)) = Some n.
Proof. unfold zpad. apply undec_zeros, undec_dec. Qed.

Lemma zpad_inj w a b : zpad w (dec a) = zpad w (dec b) -> a = b.
Proof. intros H. apply (f_equal undec) in H. rewrite !undec_zpad in H. now inversion H. Qed.

Lemma fmt05d_inj a b : fmt05d a = fmt05d b -> a = b.
Proof.
  assert (Hneg : forall w n s, zpad w (dec n) <> String "-" s).
  { intros w n s H. assert (A : absent "-" (zpad w (dec n))) by (apply absent_zpad; discriminate).
    rewrite H in A. destruct A as [A _]. now apply A. }
  intros H. unfold fmt05d in H.
  assert (Hp : forall x, (match x with Zneg _ => False | _ => True end) -> 0 <= x) by (intros [| |]; simpl; lia || tauto).
  destruct a as [|p|p], b as [|q|q]; try (exfalso; eapply Hneg; exact H); try (exfalso; eapply Hneg; symmetry; exact H).
  1-4: apply zpad_inj in H; simpl in H; congruence || lia.
  inversion H as [H0]. change (zpad 4 (dec (N.pos p)) = zpad 4 (dec (N.pos q))) in H0.
  apply zpad_inj in H0. congruence.
Qed.

Lemma absent_fmt i : absent "_" (fmt05d i) /\ absent "." (fmt05d i).
Proof.
  split; destruct i; simpl; repeat split; try discriminate; apply absent_zpad; discriminate.
Qed.

Lemma gen_filename_inj dir p1 p2 legacy i1 i2 :
  gen_filename dir p1 legacy i1 = gen_filename dir p2 legacy i2 -> p1 = p2 /\ i1 = i2.
Proof.
  unfold gen_filename. intros H. apply sapp_inj_l in H. apply (sapp_inj_l "/") in H.
  assert (H' : p1 ++ String "_" (fmt05d i1) = p2 ++ String "_" (fmt05d i2)).
  { assert (forall x y z w, x ++ (String y z ++ w) = (x ++ String y z) ++ w) as A by (intros; now rewrite sapp_assoc).
    apply (sapp_inj_r _ _ (if legacy then "" else ".h5")).
    rewrite !sapp_assoc. exact H. }
  destruct (last_sep "_" _ _ _ _ (proj1 (absent_fmt i1)) (proj1 (absent_fmt i2)) H') as [-> Hf].
  split; [reflexivity|]. now apply fmt05d_inj.
Qed.

(** *** HDF5 refinement *)
Section H5.
Context {F : Type}.
Notation fname e i := (gen_filename (h_dir e) (h_prefix e) (h_legacy e) i).

Definition same_config (e e' : h5exporter) : Prop :=
  h_dir e = h_dir e' /\ h_prefix e = h_prefix e' /\ h_legacy e = h_legacy e' /\ h_include_time e = h_include_time e'.

Definition refines (e0 e : h5exporter) (m0 m : fs F) (s : store F) : Prop :=
  same_config e0 e /\ h_next e = s_next s /\ (forall i, m (fname e0 i) = s_at s i) /\
  (forall n, (forall i, n <> fname e0 i) -> m n = m0 n).

Lemma write_refines e0 e m0 m s i c (ok : bool) :
  refines e0 e m0 m s ->
  refines e0 (if ok then h_with_next e (i + 1) else e) m0 (fs_write F m (fname e0 i) c) (store_put s i c ok).
Proof.
  intros ((C1 & C2 & C3 & C4) & H2 & H3 & H4).
  split; [|split; [|split]].
  - destruct ok; repeat split; assumption.
  - destruct ok; [reflexivity|exact H2].
  - intros j. unfold fs_write. simpl. destruct (String.eqb_spec (fname e0 j) (fname e0 i)) as [E|E].
    + apply gen_filename_inj in E. destruct E as [_ ->]. now rewrite Z.eqb_refl.
    + destruct (Z.eqb_spec j i) as [->|]; [congruence|]. apply H3.
  - intros n Hn. unfold fs_write. destruct (String.eqb_spec n (fname e0 i)) as [E|E]; [exfalso; now apply (Hn i)|].
    now apply H4.
Qed.

Lemma export_as_refines e0 e m0 m s i f t :
  refines e0 e m0 m s ->
  let '(c, ok) := stored_content (h_legacy e0) (h_include_time e0) f t in
  refines e0 (fst (fst (h5_export_as_index e m i f t))) m0 (snd (fst (h5_export_as_index e m i f t)))
          (store_put s i c ok) /\
  (snd (h5_export_as_index e m i f t) = if ok then None else Some ValueError).
Proof.
  intros H. pose proof H as ((C1 & C2 & C3 & C4) & _).
  pose proof (fun c => write_refines e0 e m0 m s i c true H) as W1.
  pose proof (fun c => write_refines e0 e m0 m s i c false H) as W0.
  unfold h5_export_as_index, stored_content. rewrite <- C1, <- C2, <- C3, <- C4.
  destruct (h_legacy e0), (h_include_time e0), t as [t|]; cbn [fst snd];
    (split; [first [apply W1|apply W0]|reflexivity]).
Qed.

Lemma step_refines e0 e m0 m s op :
  refines e0 e m0 m s ->
  refines e0 (fst (h5_step (e, m) op)) m0 (snd (h5_step (e, m) op))
          (store_step (h_legacy e0) (h_include_time e0) s op).
Proof.
  intros H. destruct op as [f t|i f t|i]; simpl.
  - unfold h5_export. pose proof (export_as_refines e0 e m0 m s (h_next e) f t H) as R.
    destruct (stored_content _ _ f t) as [c ok]. destruct R as [R _].
    pose proof H as (_ & Hn & _). rewrite Hn in R |- *. exact R.
  - pose proof (export_as_refines e0 e m0 m s i f t H) as R.
    destruct (stored_content _ _ f t) as [c ok]. apply R.
  - destruct H as (C & H2 & H3 & H4). split; [exact C|]. split; [reflexivity|]. split; assumption.
Qed.

Lemma run_refines ops e0 e m0 m s :
  refines e0 e m0 m s ->
  refines e0 (fst (h5_run (e, m) ops)) m0 (snd (h5_run (e, m) ops))
          (fold_left (store_step (h_legacy e0) (h_include_time e0)) ops s).
Proof.
  revert e m s. induction ops as [|op ops IH]; intros e m s H; [exact H|].
  pose proof (step_refines e0 e m0 m s op H) as R.
  unfold h5_run in *. cbn [fold_left].
  destruct (h5_step (e, m) op) as [e1 m1]. apply IH. exact R.
Qed.

Lemma refines_init e m : refines e e m m (mkStore (h_next e) (fun i => m (fname e i))).
Proof. repeat split. Qed.

(** consecutive exports *)
Lemma usable_content l i (p : F * option Qc) : usable l i p ->
  stored_content l i (fst p) (snd p) = (mkContent (Some (fst p)) (if l then None else if i then snd p else None), true).
Proof.
  intros H. destruct p as [f t]. unfold usable, stored_content in *. simpl in *.
  destruct l; [reflexivity|]. destruct i; [|reflexivity].
  destruct t; [reflexivity|]. destruct H as [H|[H|H]]; congruence.
Qed.

Lemma consecutive_store l i (ps : list (F * option Qc)) (s : store F) :
  Forall (usable l i) ps ->
  let s' := fold_left (store_step l i) (map (fun p => OpExport (fst p) (snd p)) ps) s in
  s_next s' = s_next s + Z.of_nat (List.length ps) /\
  (forall j p, nth_error ps j = Some p ->
     s_at s' (s_next s + Z.of_nat j) = Some (mkContent (Some (fst p)) (if l then None else if i then snd p else None))) /\
  (forall k, (k < s_next s \/ s_next s + Z.of_nat (List.length ps) <= k) -> s_at s' k = s_at s k).
Proof.
  revert s. induction ps as [|p ps IH]; intros s H.
  - simpl. rewrite Z.add_0_r. repeat split; auto. intros j p Hj. now destruct j.
  - inversion H as [|? ? Hp Hps]; subst.
    cbn [map fold_left]. cbn [store_step]. rewrite (usable_content l i p Hp).
    destruct (IH (store_put s (s_next s) (mkContent (Some (fst p)) (if l then None else if i then snd p else None)) true) Hps) as (I1 & I2 & I3).
    cbv zeta. cbn [store_put s_next s_at] in I1, I2, I3. cbn [List.length].
    rewrite Nat2Z.inj_succ. repeat split.
    + rewrite I1. lia.
    + intros j q Hj. destruct j as [|j]; simpl in Hj.
      * inversion Hj; subst. rewrite I3 by lia. now rewrite Z.add_0_r, Z.eqb_refl.
      * rewrite <- (I2 j q Hj). f_equal. lia.
    + intros k Hk. rewrite I3 by lia. destruct (Z.eqb_spec k (s_next s)); [lia|reflexivity].
Qed.
End H5.

(** *** VTK *)
Lemma vtk_sync ops v : v_next v = v_counter v ->
  let v' := fold_left vtk_step ops v in v_next v' = v_counter v' /\
  (forall p, In p (v_written v') -> In p (v_written v) \/ fst p = snd p).
Proof.
  revert v. induction ops as [|op ops IH]; intros v H; [simpl; auto|].
  cbn [fold_left].
  assert (H1 : v_next (vtk_step v op) = v_counter (vtk_step v op)) by (destruct op; simpl; lia).
  destruct (IH _ H1) as [I1 I2]. split; [exact I1|]. intros p Hp. apply I2 in Hp. destruct Hp as [Hp|Hp]; [|now right].
  destruct op; simpl in Hp; [|now left]. apply in_app_or in Hp. destruct Hp as [Hp|[<-|[]]]; [now left|right; simpl; lia].
Qed.

(** *** manager *)
Lemma export_all_ok call d l time :
  Forall (fun p => (forall fn, dict_get d (fst p) = Some fn -> call fn = Fine) /\
                   (fst (snd p) = KHdf5 true -> time <> None)) l ->
  export_all call d l time =
    (map (fun p => (fst p, (fst (snd p), snd (snd p) + 1))) l,
     flat_map (expected_events d time) l, None).
Proof.
  induction l as [|[key [k ix]] l IH]; intros H; [reflexivity|].
  inversion H as [|? ? [H1 H2] H3]; subst. simpl in H1, H2. specialize (IH H3).
  cbn [export_all map flat_map fst snd].
  assert (Hc : match dict_get d key with Some fn => call fn | None => Fine end = Fine).
  { destruct (dict_get d key) as [fn|]; [now apply H1|reflexivity]. }
  rewrite Hc.
  assert (He : export_one k ix time = (ix + 1, None)).
  { unfold export_one. destruct k as [|[|]]; try reflexivity. destruct time; [reflexivity|]. exfalso. now apply H2. }
  rewrite He, IH. unfold expected_events. cbn [fst snd]. rewrite <- app_assoc. reflexivity.
Qed.


Definition keys_of (m : manager) : list (string * kind) := map (fun p => (fst p, fst (snd p))) (m_exporters m).

Lemma manager_lockstep call h ops m i evs :
  lockstep m i -> (forall t, In (MExport t) ops -> no_failure call h m t) ->
  let '(m', evs') := fold_left (mstep call h) ops (m, evs) in
  lockstep m' (index_after i ops) /\ keys_of m' = keys_of m /\ m_preproc m' = m_preproc m /\
  evs' = (evs ++ expected_history (h (m_preproc m)) (keys_of m) i ops)%list.
Proof.
  revert m i evs. induction ops as [|op ops IH]; intros m i evs HL HF; [simpl; rewrite app_nil_r; auto|].
  cbn [fold_left]. destruct op as [t|j].
  - assert (HN : no_failure call h m t) by (apply HF; now left).
    cbn [mstep fst snd]. unfold manager_export. rewrite (export_all_ok _ _ _ _ HN).
    set (m1 := mkManager _ _).
    assert (HL1 : lockstep m1 (i + 1)).
    { unfold lockstep, m1. cbn [m_exporters]. apply Forall_map. eapply Forall_impl; [|exact HL].
      intros p Hp. cbn [snd fst]. cbn beta in Hp. now rewrite Hp. }
    assert (HF1 : forall t0, In (MExport t0) ops -> no_failure call h m1 t0).
    { intros t0 Ht. unfold no_failure, m1. cbn [m_exporters m_preproc]. apply Forall_map.
      eapply Forall_impl; [|exact (HF t0 (or_intror Ht))]. intros p Hp. exact Hp. }
    specialize (IH m1 (i + 1) (evs ++ flat_map (expected_events (h (m_preproc m)) t) (m_exporters m))%list HL1 HF1).
    destruct (fold_left (mstep call h) ops _) as [m' evs']. destruct IH as (I1 & I2 & I3 & I4).
    assert (K : keys_of m1 = keys_of m) by (unfold keys_of, m1; cbn [m_exporters]; rewrite map_map; reflexivity).
    split; [exact I1|]. split; [now rewrite I2, K|]. split; [exact I3|].
    rewrite I4. cbn [expected_history]. rewrite K. change (m_preproc m1) with (m_preproc m).
    rewrite <- app_assoc. f_equal. f_equal.
    unfold keys_of. clear -HL. unfold lockstep in HL.
    induction (m_exporters m) as [|p l IHl]; [reflexivity|]. inversion HL; subst.
    cbn [flat_map map fst snd]. rewrite IHl by assumption. reflexivity.
  - cbn [mstep fst snd].
    assert (HL1 : lockstep (manager_set_next m j) j).
    { unfold lockstep, manager_set_next. cbn [m_exporters]. apply Forall_map, Forall_forall. reflexivity. }
    assert (HF1 : forall t0, In (MExport t0) ops -> no_failure call h (manager_set_next m j) t0).
    { intros t0 Ht. unfold no_failure, manager_set_next. cbn [m_exporters m_preproc]. apply Forall_map.
      eapply Forall_impl; [|exact (HF t0 (or_intror Ht))]. intros p Hp. exact Hp. }
    specialize (IH _ j evs HL1 HF1).
    destruct (fold_left (mstep call h) ops _) as [m' evs']. destruct IH as (I1 & I2 & I3 & I4).
    assert (K : keys_of (manager_set_next m j) = keys_of m) by (unfold keys_of, manager_set_next; cbn [m_exporters]; rewrite map_map; reflexivity).
    split; [exact I1|]. split; [now rewrite I2, K|]. split; [exact I3|].
    rewrite I4, K. reflexivity.
Qed.

(** registration keeps names unique, in order of first registration *)
Lemma dict_set_keys {A} (d : list (string * A)) k v :
  map fst (dict_set d k v) = if existsb (String.eqb k) (map fst d) then map fst d else (map fst d ++ [k])%list.
Proof.
  induction d as [|[k' v'] d IH]; [reflexivity|]. cbn [dict_set map fst existsb].
  destruct (String.eqb_spec k k') as [->|E]; [reflexivity|]. cbn [map fst orb]. rewrite IH.
  destruct (existsb (String.eqb k) (map fst d)); reflexivity.
Qed.

Lemma existsb_in k l : existsb (String.eqb k) l = false -> ~ In k l.
Proof.
  intros H Hin. assert (existsb (String.eqb k) l = true); [|congruence].
  apply existsb_exists. exists k. split; [exact Hin|apply String.eqb_refl].
Qed.

Lemma dict_set_nodup {A} (d : list (string * A)) k v : NoDup (map fst d) -> NoDup (map fst (dict_set d k v)).
Proof.
  intros H. rewrite dict_set_keys. destruct (existsb (String.eqb k) (map fst d)) eqn:E; [exact H|].
  apply existsb_in in E. apply NoDup_rev in H. rewrite <- (rev_involutive (map fst d ++ [k])).
  apply NoDup_rev. rewrite rev_app_distr. simpl. constructor; [now rewrite <- in_rev|exact H].
Qed.

Lemma add_export_isolated h m field k next pre m2 :
  m_preproc m2 <> m_preproc m ->
  (fst (add_export h m field k next pre)) (m_preproc m2) = h (m_preproc m2).
Proof.
  intros H. unfold add_export. destruct pre; [|reflexivity]. simpl.
  destruct (Nat.eqb_spec (m_preproc m2) (m_preproc m)); [contradiction|reflexivity].
Qed.

(** *** suffix *)
Lemma substring_full n s : (n >= String.length s)%nat -> String.substring 0 n s = s.
Proof.
  revert n. induction s as [|x s IH]; intros [|n] H; simpl in *; try lia; try reflexivity.
  f_equal. apply IH. lia.
Qed.
Lemma substring_prefix n s : exists r, s = String.substring 0 n s ++ r.
Proof.
  revert n. induction s as [|x s IH]; intros [|n]; simpl.
  - now exists "".
  - now exists "".
  - now exists (String x s).
  - destruct (IH n) as [r Hr]. exists r. now rewrite <- Hr.
Qed.
Lemma substring_app p r : String.substring 0 (String.length p) (p ++ r) = p.
Proof. induction p as [|x p IH]; simpl; [now destruct r|now rewrite IH]. Qed.

Lemma vtk_filename_spec s : vtk_filename s = s <-> exists r, r <> "" /\ s = ".pvd" ++ r.
Proof.
  unfold vtk_filename, str_prefix. change (String.length ".pvd") with 4%nat.
  assert (Hne : s ++ ".pvd" <> s).
  { intros H. assert (String.length (s ++ ".pvd") = String.length s) as L by now rewrite H.
    rewrite slength_app in L. simpl in L. lia. }
  destruct (Nat.ltb_spec (String.length s) (4 + 1)) as [H|H]; simpl.
  - split; [intros E; contradiction|]. intros [r [Hr ->]]. simpl in H.
    destruct r; [congruence|simpl in H; lia].
  - destruct (String.eqb_spec (String.substring 0 4 s) ".pvd") as [E|E]; simpl.
    + split; [intros _|reflexivity]. destruct (substring_prefix 4 s) as [r Hr]. exists r. rewrite E in Hr. split; [|exact Hr].
      intros ->. rewrite Hr in H. simpl in H. lia.
    + split; [intros X; contradiction|]. intros [r [_ ->]]. exfalso. apply E. exact (substring_app ".pvd" r).
Qed.
