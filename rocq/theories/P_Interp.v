(** Properties of thetis/interpolation.py (C16 - C21). *)
From Coq Require Import String Ascii Sorting.Sorted Permutation.
From Verif Require Import Num Exporter_Model Timezone_Model Timezone_Spec Timezone_Proofs
  Interp_Model Interp_Spec Interp_Proofs Interp_Proofs2.
Open Scope Qc_scope.

(** ** C16 *)
Theorem C16_find_time_stamp : forall stamps t previous, increasing stamps ->
  (forall k, find_time_stamp stamps t previous = Some k <->
     exists x, nth_error stamps k = Some x /\ nearest_stamp previous (fun y => In y stamps) (t + qq 1 1000000) x) /\
  (find_time_stamp stamps t previous = None <-> no_stamp previous (fun y => In y stamps) (t + qq 1 1000000)).
Proof.
  intros a t p S. change (qq 1 1000000) with TOL. split.
  - intro k. split; [now apply fts_some|]. intros (x & Hx & N).
    destruct (find_time_stamp a t p) as [k'|] eqn:E.
    + destruct (fts_some a t p k' S E) as (x' & Hx' & N'). f_equal.
      assert (x = x') by (eapply nearest_unique; eauto). subst x'. eapply inc_nodup; eauto.
    + exfalso. eapply nearest_not_none; [exact N|]. now apply fts_none.
  - split; [now apply fts_none|]. intro N. destruct (find_time_stamp a t p) as [k'|] eqn:E; auto.
    exfalso. destruct (fts_some a t p k' S E) as (x & _ & N'). eapply nearest_not_none; eauto.
Qed.
(** three stamps; a request on the middle one finds it as the previous stamp and the last one as the next *)
Definition ex_stamps : list Qc := [qz 0; qz 10; qz 20].
Example ex_stamps_inc : increasing ex_stamps.
Proof. repeat constructor. Qed.
Example ex_stamps_find : find_time_stamp ex_stamps (qz 10) true = Some 1%nat /\ find_time_stamp ex_stamps (qz 10) false = Some 2%nat
  /\ find_time_stamp ex_stamps (qz 20) false = None /\ find_time_stamp ex_stamps (qz (-1)) true = None.
Proof. repeat split; reflexivity. Qed.

(** ** C17 *)
Lemma search_good files s t p : Forall valid_file files -> disjoint_ranges files ->
  good (sort_files files) s t p (time_search files s t p).
Proof.
  intros V D. unfold time_search. apply search_sorted_good.
  - eapply Permutation_Forall; [symmetry; apply sort_files_perm|exact V].
  - now apply sorted_before.
Qed.
Lemma in_sorted files f : In f (sort_files files) <-> In f files.
Proof. split; apply Permutation_in; [|symmetry]; apply sort_files_perm. Qed.
Lemma stamps_sorted files x : a_stamp (sort_files files) x <-> a_stamp files x.
Proof. unfold a_stamp. split; intros (f & Hf & Hx); exists f; split; auto; now apply in_sorted. Qed.
Lemma nearest_ext p P Q b x : (forall y, P y <-> Q y) -> nearest_stamp p P b x -> nearest_stamp p Q b x.
Proof.
  intros E. destruct p; intros (A & B & C); (split; [now apply E|]); (split; [exact B|]); intros y Hy; apply C; now apply E.
Qed.
Lemma no_stamp_ext p P Q b : (forall y, P y <-> Q y) -> no_stamp p P b -> no_stamp p Q b.
Proof. intros E N y Hy. apply (N y). now apply E. Qed.

(** The search over any set of files with disjoint time ranges, listed in any order,
    returns the nearest stamp over all files and where it is stored, and raises
    exactly if there is none. *)
Theorem C17_search_over_files : forall files init t previous, Forall valid_file files -> disjoint_ranges files ->
  match time_search files init t previous with
  | Some (name, k, x) => stored_at files name k (init + x) /\
                         nearest_stamp previous (a_stamp files) (init + t + qq 1 1000000) (init + x)
  | None => no_stamp previous (a_stamp files) (init + t + qq 1 1000000)
  end.
Proof.
  intros files s t p V D. change (qq 1 1000000) with TOL.
  pose proof (search_good files s t p V D) as G. destruct (time_search files s t p) as [[[n k] x]|]; simpl in G.
  - destruct G as (f & Hf & Hn & Hk & N). rewrite (Qcplus_comm s x). split.
    + exists f. split; [now apply in_sorted|]. auto.
    + eapply nearest_ext; [|exact N]. apply stamps_sorted.
  - eapply no_stamp_ext; [|exact G]. apply stamps_sorted.
Qed.
(** a stamp is stored in one place only *)
Lemma FOP_in {A} (R : A -> A -> Prop) l f g : ForallOrdPairs R l -> In f l -> In g l -> f = g \/ R f g \/ R g f.
Proof.
  induction 1 as [|a l F H IH]; intros Hf Hg; [destruct Hf|].
  rewrite Forall_forall in F. destruct Hf as [->|Hf], Hg as [->|Hg]; auto.
Qed.
Lemma stored_unique files n1 k1 n2 k2 x : Forall valid_file files -> disjoint_ranges files ->
  stored_at files n1 k1 x -> stored_at files n2 k2 x -> n1 = n2 /\ k1 = k2.
Proof.
  intros V D (f & Hf & <- & Kf) (g & Hg & <- & Kg).
  assert (E : f = g).
  { destruct (FOP_in _ _ f g D Hf Hg) as [E|H]; auto.
    assert (all_before f g \/ all_before g f) as [B|B] by tauto; exfalso;
      (assert (x < x) by (apply B; eapply nth_error_In; eauto); qc). }
  subst g. split; auto. rewrite Forall_forall in V. eapply inc_nodup; eauto. apply V; auto.
Qed.
Theorem C17_file_order_irrelevant : forall files files' init t previous,
  Forall valid_file files -> disjoint_ranges files -> Permutation files files' ->
  time_search files init t previous = time_search files' init t previous.
Proof.
  intros files files' s t p V D P.
  assert (V' : Forall valid_file files') by (eapply Permutation_Forall; eauto).
  assert (D' : disjoint_ranges files') by (eapply FOP_perm; [|exact P|exact D]; tauto).
  assert (St : forall y, a_stamp files' y <-> a_stamp files y).
  { intro y. split; intros (f & Hf & Hy); exists f; split; auto; (eapply Permutation_in; [|exact Hf]); [symmetry|]; auto. }
  pose proof (C17_search_over_files files s t p V D) as A. pose proof (C17_search_over_files files' s t p V' D') as B.
  destruct (time_search files s t p) as [[[n k] x]|], (time_search files' s t p) as [[[n' k'] x']|]; auto.
  - destruct A as [A1 A2], B as [B1 B2]. apply (nearest_ext _ _ _ _ _ St) in B2.
    assert (E : s + x = s + x') by (eapply nearest_unique; eauto).
    assert (x = x') by (rewrite <- (Qcplus_0_l x), <- (Qcplus_0_l x'), <- (Qcplus_opp_r s), (Qcplus_comm s), <- !Qcplus_assoc, E; reflexivity).
    subst x'. destruct B1 as (g & Hg & Bn & Bk).
    assert (B1 : stored_at files n' k' (s + x)) by (exists g; split; auto; eapply Permutation_in; [symmetry; exact P|exact Hg]).
    destruct (stored_unique files n k n' k' _ V D A1 B1) as [-> ->]. reflexivity.
  - destruct A as [_ A]. exfalso. eapply nearest_not_none; [exact A|]. eapply no_stamp_ext; [exact St|exact B].
  - destruct B as [_ B]. exfalso. apply (nearest_ext _ _ _ _ _ St) in B. eapply nearest_not_none; [exact B|exact A].
Qed.
Open Scope string_scope.
Definition ex_files : list ncfile := [mkNc "b.nc" [qz 300; qz 400]; mkNc "c.nc" [qz 500]; mkNc "a.nc" [qz 0; qz 100; qz 200]].
Example ex_files_ok : Forall valid_file ex_files /\ disjoint_ranges ex_files.
Proof.
  assert (B : forall l m, forallb (fun x => forallb (Qcltb x) m) l = true -> forall x y, In x l -> In y m -> x < y).
  { intros l m H x y Hx Hy. rewrite forallb_forall in H. specialize (H x Hx). rewrite forallb_forall in H. specialize (H y Hy).
    now destruct (Qcltb_spec x y). }
  split.
  - repeat constructor; try discriminate.
  - assert (B' : forall f g, forallb (fun x => forallb (Qcltb x) (nc_times g)) (nc_times f) = true -> all_before f g).
    { intros f g H x y. now apply B. }
    apply FOP_cons; [|apply FOP_cons; [|apply FOP_cons; [|apply FOP_nil]]]; repeat apply Forall_cons; try apply Forall_nil.
    + left. apply B'. reflexivity. + right. apply B'. reflexivity. + right. apply B'. reflexivity.
Qed.
Example ex_files_find : time_search ex_files (qz 100) (qz 150) true = Some ("a.nc", 2%nat, qz 100)
  /\ time_search ex_files (qz 100) (qz 150) false = Some ("b.nc", 0%nat, qz 200)
  /\ time_search ex_files (qz 100) (qz 350) false = Some ("c.nc", 0%nat, qz 400)
  /\ time_search ex_files (qz 100) (qz 400) false = None.
Proof. repeat split; reflexivity. Qed.

(** With overlapping files (here a file starting inside another one) a stamp that
    exists is missed: the search returns a stamp which is not the nearest. *)
Theorem C17_overlap_refuted : exists files t name k x y,
  Forall valid_file files /\ time_search files 0 t true = Some (name, k, x) /\ a_stamp files y /\ y < t /\ x < y.
Proof.
  exists [mkNc "a.nc" [qz 0; qz 100; qz 200]; mkNc "b.nc" [qz 50; qz 60]], (qz 150), "b.nc", 1%nat, (qz 60), (qz 100).
  split; [repeat constructor; discriminate|]. split; [reflexivity|].
  split; [exists (mkNc "a.nc" [qz 0; qz 100; qz 200]); split; [now left|right; now left]|]. split; reflexivity.
Qed.

(** ** C18 *)

(** The cache never changes a result and never holds more than two slices,
    whatever was requested before and whatever search and reader are plugged in. *)
Theorem C18_cache_transparent : forall find reader (scalars : option (list Qc)) (history : list Qc) t,
  let c := interp_run find reader [] history in
  fst (interp_call find reader c t) = fst (interp_call find reader [] t) /\
  fst (series_call find reader scalars c t) = fst (series_call find reader scalars [] t) /\
  (List.length c <= 2)%nat.
Proof.
  intros find reader sc hist t c.
  assert (O0 : cache_ok reader []) by (intros k v []).
  assert (S0 : small []) by (split; [constructor|simpl; lia]).
  destruct (run_inv find reader hist [] O0 S0) as [O S]. fold c in O, S.
  destruct (call_ok find reader c t O) as [E1 _]. destruct (call_ok find reader [] t O0) as [E2 _].
  split; [congruence|]. split; [|apply S].
  unfold series_call. destruct (interp_call find reader c t) as [r1 c1], (interp_call find reader [] t) as [r2 c2].
  cbn [fst] in *. subst. reflexivity.
Qed.

(** Between two consecutive stamps the value is the linear interpolant of the stored
    values: exact at the stamp, between the two values elsewhere. *)
Theorem C18_linear_between_stamps : forall files init reader nv t a b na ka nb kb,
  Forall valid_file files -> disjoint_ranges files ->
  (forall n k, List.length (reader n k) = nv) ->
  stored_at files na ka a -> stored_at files nb kb b ->
  a <= init + t -> init + t + qq 1 1000000 <= b -> (forall y, a_stamp files y -> y <= a \/ b <= y) ->
  exists vals,
    (forall history, fst (interp_call (time_search files init) reader
        (interp_run (time_search files init) reader [] history) t) = inl vals) /\
    List.length vals = nv /\
    (forall i va vb v, nth_error (reader na ka) i = Some va -> nth_error (reader nb kb) i = Some vb -> nth_error vals i = Some v ->
       v * (b - a) = va * (b - (init + t)) + vb * (init + t - a) /\ qmin va vb <= v <= qmax va vb) /\
    (init + t = a -> vals = reader na ka).
Proof.
  intros files s rd nv t a b na ka nb kb V D NV Sa Sb L1 L2 C. change (qq 1 1000000) with TOL in L2.
  pose proof tol_pos as TP.
  assert (Pa : a_stamp files a) by (destruct Sa as (f & Hf & _ & H); exists f; split; auto; eapply nth_error_In; eauto).
  assert (Pb : a_stamp files b) by (destruct Sb as (f & Hf & _ & H); exists f; split; auto; eapply nth_error_In; eauto).
  assert (Lab : a < b) by qc.
  assert (Fp : time_search files s t true = Some (na, ka, a - s)).
  { pose proof (C17_search_over_files files s t true V D) as A. change (qq 1 1000000) with TOL in A.
    assert (N : nearest_stamp true (a_stamp files) (s + t + TOL) a).
    { split; [exact Pa|]. split; [qc|]. intros y Hy Ly. destruct (C y Hy); qc. }
    destruct (time_search files s t true) as [[[n k] x]|].
    - destruct A as [A1 A2]. assert (E : s + x = a) by (eapply nearest_unique; eauto). rewrite E in A1.
      destruct (stored_unique files _ _ _ _ _ V D A1 Sa) as [-> ->]. rewrite <- E. do 2 f_equal. ring.
    - exfalso. eapply nearest_not_none; eauto. }
  assert (Fn : time_search files s t false = Some (nb, kb, b - s)).
  { pose proof (C17_search_over_files files s t false V D) as A. change (qq 1 1000000) with TOL in A.
    assert (N : nearest_stamp false (a_stamp files) (s + t + TOL) b).
    { split; [exact Pb|]. split; [exact L2|]. intros y Hy Ly. destruct (C y Hy); qc. }
    destruct (time_search files s t false) as [[[n k] x]|].
    - destruct A as [A1 A2]. assert (E : s + x = b) by (eapply nearest_unique; eauto). rewrite E in A1.
      destruct (stored_unique files _ _ _ _ _ V D A1 Sb) as [-> ->]. rewrite <- E. do 2 f_equal. ring.
    - exfalso. eapply nearest_not_none; eauto. }
  destruct (interp_values_ok t (a - s) (b - s) (rd na ka) (rd nb kb)) as (al & E & A0 & A1 & H); [qc|qc|qc|].
  assert (E' : al * (b - a) = s + t - a) by (replace (b - a) with (b - s - (a - s)) by ring; rewrite E; ring).
  eexists. split; [|split; [|split]].
  - intro hist. destruct (C18_cache_transparent (time_search files s) rd None hist t) as (T & _). rewrite T.
    destruct (call_ok (time_search files s) rd [] t) as [U _]; [intros k v []|]. rewrite U. unfold uncached.
    rewrite Fp, Fn. cbn [snd]. exact H.
  - rewrite map_length, combine_length. change (@Datatypes.length) with (@List.length). rewrite !NV. apply Nat.min_id.
  - intros i va vb v Ha Hb Hv. rewrite nth_error_map in Hv. rewrite (combine_nth_error _ _ _ _ _ Ha Hb) in Hv.
    assert (Hv' : (1 - al) * va + al * vb = v) by (cbn [option_map fst snd] in Hv; congruence). clear Hv. subst v. split.
    + replace (((1 - al) * va + al * vb) * (b - a)) with (va * (b - a) + (vb - va) * (al * (b - a))) by ring. rewrite E'. ring.
    + now apply interp_between.
  - intro Et. assert (al = 0).
    { rewrite Et in E'. assert (Z : al * (b - a) = 0) by (rewrite E'; ring). apply Qcmult_integral in Z. destruct Z as [Z|Z]; [auto|exfalso; qc]. }
    subst al. etransitivity; [|apply (map_combine_fst (rd na ka) (rd nb kb)); now rewrite !NV].
    apply map_ext. intros [p n]. cbn [fst snd]. ring.
Qed.

(** Within 1e-6 s before a stamp [b] the interval after [b] is used: the value then
    differs from the stored one by at most a millionth of the following difference,
    provided the stamps are at least one second apart. *)
Theorem C18_just_before_stamp : forall files init reader nv t b c nb kb nc kc,
  Forall valid_file files -> disjoint_ranges files ->
  (forall n k, List.length (reader n k) = nv) ->
  stored_at files nb kb b -> stored_at files nc kc c ->
  init + t <= b -> b < init + t + qq 1 1000000 -> b + 1 <= c -> (forall y, a_stamp files y -> y <= b \/ c <= y) ->
  exists vals,
    fst (interp_call (time_search files init) reader [] t) = inl vals /\
    (forall i vb vc v, nth_error (reader nb kb) i = Some vb -> nth_error (reader nc kc) i = Some vc -> nth_error vals i = Some v ->
       exists e, 0 <= e <= qq 1 1000000 /\ v = vb - e * (vc - vb)).
Proof.
  intros files s rd nv t b c nb kb nc kc V D NV Sb Sc L1 L2 Lc C. change (qq 1 1000000) with TOL in *.
  pose proof tol_pos as TP. assert (T1 : TOL < 1) by (unfold TOL, qq; qc).
  assert (Pb : a_stamp files b) by (destruct Sb as (f & Hf & _ & H); exists f; split; auto; eapply nth_error_In; eauto).
  assert (Pc : a_stamp files c) by (destruct Sc as (f & Hf & _ & H); exists f; split; auto; eapply nth_error_In; eauto).
  assert (Fp : time_search files s t true = Some (nb, kb, b - s)).
  { pose proof (C17_search_over_files files s t true V D) as A. change (qq 1 1000000) with TOL in A.
    assert (N : nearest_stamp true (a_stamp files) (s + t + TOL) b).
    { split; [exact Pb|]. split; [qc|]. intros y Hy Ly. destruct (C y Hy); qc. }
    destruct (time_search files s t true) as [[[n k] x]|].
    - destruct A as [A1 A2]. assert (E : s + x = b) by (eapply nearest_unique; eauto). rewrite E in A1.
      destruct (stored_unique files _ _ _ _ _ V D A1 Sb) as [-> ->]. rewrite <- E. do 2 f_equal. ring.
    - exfalso. eapply nearest_not_none; eauto. }
  assert (Fn : time_search files s t false = Some (nc, kc, c - s)).
  { pose proof (C17_search_over_files files s t false V D) as A. change (qq 1 1000000) with TOL in A.
    assert (N : nearest_stamp false (a_stamp files) (s + t + TOL) c).
    { split; [exact Pc|]. split; [qc|]. intros y Hy Ly. destruct (C y Hy); qc. }
    destruct (time_search files s t false) as [[[n k] x]|].
    - destruct A as [A1 A2]. assert (E : s + x = c) by (eapply nearest_unique; eauto). rewrite E in A1.
      destruct (stored_unique files _ _ _ _ _ V D A1 Sc) as [-> ->]. rewrite <- E. do 2 f_equal. ring.
    - exfalso. eapply nearest_not_none; eauto. }
  set (d := c - s - (b - s)). assert (Ed : d = c - b) by (unfold d; ring).
  assert (Pd : 0 < d) by (rewrite Ed; qc). assert (Nd : d <> 0) by (intro E; rewrite E in Pd; discriminate).
  set (al := (t - (b - s)) / d).
  assert (E : al * d = t - (b - s)) by (unfold al; field; auto).
  assert (A0 : al <= 0).
  { unfold al. apply qc_div_le; auto. rewrite Qcmult_0_l. qc. }
  assert (A1 : 0 - TOL <= al).
  { unfold al. apply qc_le_div; auto. assert (0 <= TOL * (d - 1)) by (apply qc_mult_nonneg; [qc|rewrite Ed; qc]).
    replace (TOL * (d - 1)) with (TOL * d - TOL) in H by ring. replace ((0 - TOL) * d) with (- (TOL * d)) by ring. qc. }
  destruct (call_ok (time_search files s) rd [] t) as [U _]; [intros k v []|]. rewrite U. unfold uncached.
  rewrite Fp, Fn. cbn [snd]. unfold interp_values. fold d. destruct (Qceqb_spec d 0) as [Z|_]; [contradiction|]. fold al.
  destruct (Qcleb_spec (0 - TOL) al) as [|X]; [|contradiction].
  destruct (Qcleb_spec al (1 + TOL)) as [|X]; [|exfalso; apply X; qc]. cbn [andb].
  eexists. split; [reflexivity|]. intros i vb vc v Hb Hc Hv.
  rewrite nth_error_map in Hv. unfold read in Hv. cbn [fst snd] in Hv. rewrite (combine_nth_error _ _ _ _ _ Hb Hc) in Hv.
  assert (Hv' : (1 - al) * vb + al * vc = v) by (cbn [option_map fst snd] in Hv; congruence).
  exists (- al). split; [split; qc|]. rewrite <- Hv'. ring.
Qed.

(** The last stamp of the data cannot be requested. *)
Theorem C18_last_stamp_refuted : exists files reader x,
  Forall valid_file files /\ disjoint_ranges files /\ a_stamp files x /\
  fst (interp_call (time_search files 0) reader [] x) = inr NoFile.
Proof.
  exists [mkNc "a.nc" [qz 0; qz 100]], (fun _ k => [qn k]), (qz 100).
  split; [repeat constructor; discriminate|]. split; [repeat constructor|].
  split; [exists (mkNc "a.nc" [qz 0; qz 100]); split; [now left|right; now left]|]. reflexivity.
Qed.
(** Stamps half a second apart: a request less than 1e-6 s before a stamp fails. *)
Theorem C18_dense_stamps_refuted : exists files reader t,
  Forall valid_file files /\ disjoint_ranges files /\ a_stamp files 0 /\ 0 < t /\ a_stamp files 1 /\ t < 1 /\
  fst (interp_call (time_search files 0) reader [] t) = inr OutOfRange.
Proof.
  exists [mkNc "a.nc" [qz 0; qq 1 2; qz 1]], (fun _ k => [qn k]), (qq 4999991 10000000).
  split; [repeat constructor; discriminate|]. split; [repeat constructor|].
  split; [exists (mkNc "a.nc" [qz 0; qq 1 2; qz 1]); split; [now left|now left]|]. split; [reflexivity|].
  split; [exists (mkNc "a.nc" [qz 0; qq 1 2; qz 1]); split; [now left|do 2 right; now left]|]. split; reflexivity.
Qed.
(** linear interpolation across two files, with a cache left by other requests *)
Definition ex_reader (n : string) (k : nat) : list Qc := if String.eqb n "a.nc" then [qn k; qz 7] else [qz 10; qz 3].
Example ex_interp : match fst (interp_call (time_search ex_files (qz 100)) ex_reader
    (interp_run (time_search ex_files (qz 100)) ex_reader [] [qz 10; qz 210; qz 0]) (qz 150)) with
  inl l => map this l = [6#1; 5#1]%Q | inr _ => False end.
Proof. vm_compute. reflexivity. Qed.

(** ** C19 *)
Definition date_valid (d : date) : Prop :=
  let '(y, m, dd) := d in valid_date (Z.of_nat y) (Z.of_nat m) (Z.of_nat dd).
Definition date_before (a b : date) : Prop :=
  let '(y1, m1, d1) := a in let '(y2, m2, d2) := b in
  date_lt (Z.of_nat y1, Z.of_nat m1, Z.of_nat d1) (Z.of_nat y2, Z.of_nat m2, Z.of_nat d2).
Definition name_of (p : list tok) (d : date) : string := let '(y, m, dd) := d in format_pattern p y m dd.
Definition complete (p : list tok) : Prop := existsb is_year p = true /\ existsb is_month p = true /\ existsb is_day p = true.

Lemma dim_le31 y m : (days_in_month y m <= 31)%Z.
Proof. pose proof (dim_pos y m). lia. Qed.
(** A file name made from the pattern gives back its date *)
Theorem C19_parse_round_trip : forall p d, complete p -> date_valid d -> 
  let '(y, m, dd) := d in parse_date p (name_of p d) = Some d.
Proof.
  intros p [[y m] d] (P1 & P2 & P3) (Y & M & D). simpl. pose proof (dim_le31 (Z.of_nat y) (Z.of_nat m)).
  apply parse_format; auto; lia.
Qed.
(** Start times follow the order of the dates *)
Theorem C19_start_times_ordered : forall init hour offset a b, date_valid a -> date_valid b -> date_before a b ->
  daily_start init hour offset a < daily_start init hour offset b.
Proof.
  intros init h o [[y1 m1] d1] [[y2 m2] d2] (Y1 & M1 & D1) (Y2 & M2 & D2) L. unfold daily_start.
  rewrite !(qq_qz (dt_diff _ _)). 
  assert (G : (dt_diff (mkDt (Z.of_nat y1) (Z.of_nat m1) (Z.of_nat d1) (h * 3600 * 1000000) o) init <
               dt_diff (mkDt (Z.of_nat y2) (Z.of_nat m2) (Z.of_nat d2) (h * 3600 * 1000000) o) init)%Z).
  { unfold dt_diff. cbn [dt_year dt_month dt_day dt_us dt_offset]. pose proof (ymd2ord_lt _ _ _ _ _ _ M1 D1 M2 D2 L).
    unfold us_per_day. lia. }
  apply qz_lt in G. assert (P : 0 < qq 1 1000000) by (unfold qq; qc). apply Qcmult_lt_compat_r; auto.
Qed.
Lemma date_trich a b : a = b \/ date_before a b \/ date_before b a.
Proof. destruct a as [[y1 m1] d1], b as [[y2 m2] d2]. simpl. assert ((y1 = y2 /\ m1 = m2 /\ d1 = d2) \/ ~ (y1 = y2 /\ m1 = m2 /\ d1 = d2)) as [(-> & -> & ->)|N] by lia; [auto|right; lia]. Qed.
Lemma start_inj init h o a b : date_valid a -> date_valid b -> daily_start init h o a = daily_start init h o b -> a = b.
Proof.
  intros Va Vb E. destruct (date_trich a b) as [|[L|L]]; auto; exfalso.
  - pose proof (C19_start_times_ordered init h o a b Va Vb L). rewrite E in H. qc.
  - pose proof (C19_start_times_ordered init h o b a Vb Va L). rewrite E in H. qc.
Qed.
Lemma date_ok_valid d : date_valid d -> date_ok d = true.
Proof.
  destruct d as [[y m] d]. intros (Y & M & D). unfold date_ok.
  repeat (apply andb_true_intro; split); try apply Z.leb_le; lia.
Qed.
Lemma daily_init_ok p init h o dates : complete p -> Forall date_valid dates ->
  daily_init p init h o (map (name_of p) dates) = Some (sort_daily (map (fun d => (name_of p d, daily_start init h o d)) dates)).
Proof.
  intros C V. unfold daily_init.
  assert (E : map_opt (daily_entry p init h o) (map (name_of p) dates) = Some (map (fun d => (name_of p d, daily_start init h o d)) dates)).
  { induction V as [|d dates Vd V IH]; [reflexivity|]. simpl. rewrite IH. unfold daily_entry.
    pose proof (C19_parse_round_trip p d C Vd) as R. destruct d as [[y m] dd]. rewrite R. rewrite (date_ok_valid _ Vd). reflexivity. }
  now rewrite E.
Qed.
Lemma nodup_map_in {A B} (f : A -> B) l : (forall x y, In x l -> In y l -> f x = f y -> x = y) -> NoDup l -> NoDup (map f l).
Proof.
  intros I N. induction N as [|x l Hx N IH]; simpl; constructor.
  - intro H. apply in_map_iff in H. destruct H as (y & E & Hy). assert (y = x) by (apply I; simpl; auto). subst. contradiction.
  - apply IH. intros a b Ha Hb. apply I; now right.
Qed.
(** Any list of daily files, in any order: the search returns the file of the nearest
    day, and raises exactly if there is none. *)
Theorem C19_daily_search : forall p init hour offset dates t previous,
  complete p -> Forall date_valid dates -> NoDup dates ->
  exists files, daily_init p init hour offset (map (name_of p) dates) = Some files /\
  let a_start x := exists d, In d dates /\ daily_start init hour offset d = x in
  match daily_find files t previous with
  | Some (name, k, x) => k = 0%nat /\
      (exists d, In d dates /\ name = name_of p d /\ x = daily_start init hour offset d) /\
      nearest_stamp previous a_start (t + qq 1 1000000) x
  | None => no_stamp previous a_start (t + qq 1 1000000)
  end.
Proof.
  intros p init h o dates t prev C V N. eexists. split; [now apply daily_init_ok|].
  set (l := map (fun d => (name_of p d, daily_start init h o d)) dates).
  assert (I : increasing (map snd (sort_daily l))).
  { apply sort_daily_increasing. unfold l. rewrite map_map. cbn [snd]. apply nodup_map_in; auto.
    rewrite Forall_forall in V. intros x y Hx Hy. apply start_inj; auto. }
  pose proof (daily_sorted_find (sort_daily l) t prev I) as F. change (qq 1 1000000) with TOL.
  assert (S : forall y, In y (map snd (sort_daily l)) <-> exists d, In d dates /\ daily_start init h o d = y).
  { intro y. split.
    - intro H. apply (Permutation_in _ (Permutation_map snd (sort_daily_perm l))) in H. unfold l in H. rewrite map_map in H.
      apply in_map_iff in H. destruct H as (d & E & Hd). exists d. auto.
    - intros (d & Hd & E). apply (Permutation_in _ (Permutation_map snd (Permutation_sym (sort_daily_perm l)))).
      unfold l. rewrite map_map. apply in_map_iff. exists d. auto. }
  destruct (daily_find (sort_daily l) t prev) as [[[n k] x]|].
  - destruct F as (F1 & F2 & F3). split; [exact F1|]. split.
    + apply (Permutation_in _ (sort_daily_perm l)) in F2. unfold l in F2. apply in_map_iff in F2.
      destruct F2 as (d & E & Hd). exists d. inversion E. auto.
    + eapply nearest_ext; [|exact F3]. exact S.
  - eapply no_stamp_ext; [|exact F]. exact S.
Qed.
(** In particular the file of a day is found at that day's time stamp. *)
Theorem C19_requested_day : forall p init hour offset dates d,
  complete p -> Forall date_valid dates -> NoDup dates -> In d dates ->
  (forall d', In d' dates -> date_before d d' -> daily_start init hour offset d + qq 1 1000000 <= daily_start init hour offset d') ->
  exists files, daily_init p init hour offset (map (name_of p) dates) = Some files /\
  exists x, daily_find files (daily_start init hour offset d) true = Some (name_of p d, 0%nat, x).
Proof.
  intros p init h o dates d C V N Hd Sp.
  destruct (C19_daily_search p init h o dates (daily_start init h o d) true C V N) as (files & E & F).
  exists files. split; [exact E|]. cbv zeta in F. pose proof tol_pos as TP. change TOL with (qq 1 1000000) in TP.
  rewrite Forall_forall in V.
  destruct (daily_find files (daily_start init h o d) true) as [[[n k] x]|].
  - destruct F as (-> & (d' & Hd' & -> & ->) & (A & B & G)). exists (daily_start init h o d').
    specialize (G (daily_start init h o d) (ex_intro _ d (conj Hd eq_refl)) ltac:(qc)).
    destruct (date_trich d d') as [->|[L|L]]; auto; exfalso.
    + specialize (Sp d' Hd' L). qc.
    + pose proof (C19_start_times_ordered init h o d' d (V _ Hd') (V _ Hd) L). qc.
  - exfalso. apply (F (daily_start init h o d) (ex_intro _ d (conj Hd eq_refl))). qc.
Qed.
(** A missing day is not noticed: the two neighbouring files are used instead. *)
Theorem C19_missing_day_refuted : exists p init dates missing files t before after x1 x2,
  complete p /\ Forall date_valid (missing :: dates) /\ NoDup (missing :: dates) /\
  daily_init p init 12 0 (map (name_of p) dates) = Some files /\
  t = daily_start init 12 0 missing /\
  daily_find files t true = Some (before, 0%nat, x1) /\ daily_find files t false = Some (after, 0%nat, x2) /\
  before <> name_of p missing /\ after <> name_of p missing.
Proof.
  exists [Lit "f"%char; TYear; TMonth; TDay], (mkDt 2020 2 28 0 0), [(2020, 3, 1); (2020, 2, 28)]%nat, (2020, 2, 29)%nat.
  do 6 eexists. split; [repeat split|]. split.
  { repeat constructor; vm_compute; discriminate. }
  split. { repeat constructor; simpl; intuition congruence. }
  split; [vm_compute; reflexivity|]. split; [reflexivity|]. split; [vm_compute; reflexivity|]. split; [vm_compute; reflexivity|].
  split; vm_compute; discriminate.
Qed.
Definition ex_pattern : list tok := [Lit "d"%char; Lit "/"%char; TYear; Lit "/"%char; TYear; TMonth; TDay; Lit "."%char; Lit "n"%char; Lit "c"%char].
Example ex_daily : exists files,
  daily_init ex_pattern (mkDt 2020 2 28 0 0) 12 0 ["d/2020/20200301.nc"; "d/2020/20200229.nc"; "d/2019/20191231.nc"] = Some files /\
  daily_find files (daily_start (mkDt 2020 2 28 0 0) 12 0 (2020, 2, 29)%nat) true = Some ("d/2020/20200229.nc", 0%nat, qq 129600000000 1000000).
Proof. eexists. split; vm_compute; reflexivity. Qed.

(** ** C20 *)
(** The first variable in file order that satisfies a criterion is returned; an error
    is raised exactly if no variable does (or no attribute criterion was given). *)
Theorem C20_lookup : forall vars sn ln vn n,
  (sn <> None \/ ln <> None) ->
  let l (o : option (list string)) := match o with Some x => x | None => [] end in
  let matches v := (exists s, v_standard v = Some s /\ In (lower s) (l sn)) \/
                   (exists s, v_long v = Some s /\ In (lower s) (l ln)) \/ In (lower (v_name v)) (l vn) in
  (get_ncvar_name vars sn ln vn = inl n <->
     exists before v after, vars = (before ++ v :: after)%list /\ v_name v = n /\ matches v /\ forall u, In u before -> ~ matches u) /\
  (get_ncvar_name vars sn ln vn = inr NcValue <-> forall v, In v vars -> ~ matches v).
Proof.
  intros vars sn ln vn n G l matches.
  assert (EQ : forall a s, existsb (String.eqb a) s = true <-> In a s).
  { intros a s. rewrite existsb_exists. split; [intros (x & Hx & E); apply String.eqb_eq in E; subst; auto|intro H; exists a; split; auto; apply String.eqb_refl]. }
  assert (M : forall v, var_matches (l sn) (l ln) (l vn) v = true <-> matches v).
  { intro v. unfold var_matches, matches. rewrite !orb_true_iff, EQ. unfold attr_in.
    destruct (v_standard v) as [s|], (v_long v) as [s'|]; rewrite ?EQ; split; intro H.
    - destruct H as [[H|H]|H]; eauto. - destruct H as [(x & E & H)|[(x & E & H)|H]]; try (injection E as <-); tauto.
    - destruct H as [[H|H]|H]; eauto; discriminate. - destruct H as [(x & E & H)|[(x & E & H)|H]]; try discriminate; try (injection E as <-); tauto.
    - destruct H as [[H|H]|H]; eauto; discriminate. - destruct H as [(x & E & H)|[(x & E & H)|H]]; try discriminate; try (injection E as <-); tauto.
    - destruct H as [[H|H]|H]; eauto; discriminate. - destruct H as [(x & E & H)|[(x & E & H)|H]]; try discriminate; tauto. }
  assert (Mf : forall v, var_matches (l sn) (l ln) (l vn) v = false <-> ~ matches v).
  { intro v. rewrite <- M. destruct (var_matches _ _ _ v); split; congruence. }
  assert (U : get_ncvar_name vars sn ln vn = match first_match (l sn) (l ln) (l vn) vars with Some n => inl n | None => inr NcValue end).
  { unfold get_ncvar_name. destruct sn, ln; auto. destruct G; congruence. }
  rewrite U. split.
  - transitivity (first_match (l sn) (l ln) (l vn) vars = Some n).
    { destruct (first_match _ _ _ _); split; congruence. }
    rewrite first_match_some. split.
    + intros (b & v & a & E & Nm & H & F). exists b, v, a. rewrite M in H. repeat split; auto.
      intros u Hu. rewrite forallb_forall in F. specialize (F u Hu). apply Mf. destruct (var_matches _ _ _ u); auto; discriminate.
    + intros (b & v & a & E & Nm & H & F). exists b, v, a. rewrite M. repeat split; auto.
      apply forallb_forall. intros u Hu. specialize (F u Hu). apply Mf in F. now rewrite F.
  - transitivity (first_match (l sn) (l ln) (l vn) vars = None).
    { destruct (first_match _ _ _ _); split; congruence. }
    rewrite first_match_none. split; intros H v Hv; specialize (H v Hv); now apply Mf.
Qed.
(** If the file has just one variable with the standard name asked for, and no
    variable satisfies the weaker criteria, that variable is found. *)
Theorem C20_unique_standard_name : forall vars sn ln vn v,
  In v vars -> (exists s, v_standard v = Some s /\ lower s = sn) ->
  (forall u, In u vars -> u <> v -> var_matches [sn] ln vn u = false) ->
  get_ncvar_name vars (Some [sn]) (Some ln) (Some vn) = inl (v_name v).
Proof.
  intros vars sn ln vn v Hv (s & E & L) U. simpl.
  assert (M : var_matches [sn] ln vn v = true) by (unfold var_matches, attr_in; rewrite E, L; simpl; now rewrite String.eqb_refl).
  assert (F : first_match [sn] ln vn vars = Some (v_name v)).
  { induction vars as [|u r IH]; [destruct Hv|]. simpl. destruct (var_matches [sn] ln vn u) eqn:Mu.
    - f_equal. destruct (string_dec (v_name u) (v_name v)) as [|N]; auto.
      rewrite (U u) in Mu; [discriminate|now left|congruence].
    - apply IH; [destruct Hv as [<-|Hv]; [congruence|auto]|]. intros w Hw. apply U. now right. }
  now rewrite F.
Qed.
(** The precedence standard_name > long_name > var_name does not hold across
    variables: an earlier variable matching only by name wins. *)
Theorem C20_precedence_refuted : exists vars v n,
  In v vars /\ v_standard v = Some "sea_surface_height" /\
  get_ncvar_name vars (Some ["sea_surface_height"]) None (Some ["zeta"]) = inl n /\ n <> v_name v /\
  (forall u, In u vars -> v_name u = n -> v_standard u = None /\ v_long u = None).
Proof.
  exists [mkVar "zeta" None None; mkVar "eta" (Some "sea_surface_height") None],
         (mkVar "eta" (Some "sea_surface_height") None), "zeta".
  split; [right; now left|]. split; [reflexivity|]. split; [reflexivity|]. split; [discriminate|].
  intros u [<-|[<-|[]]]; simpl; [auto|discriminate].
Qed.
(** A criterion with an upper case letter never matches, not even the identical attribute. *)
Theorem C20_upper_case_refuted : exists vars v,
  In v vars /\ v_standard v = Some "Elevation" /\
  get_ncvar_name vars (Some ["Elevation"]) None None = inr NcValue.
Proof. exists [mkVar "e" (Some "Elevation") None], (mkVar "e" (Some "Elevation") None). split; [now left|]. split; reflexivity. Qed.
Example ex_lookup : get_ncvar_name [mkVar "lon" (Some "longitude") None; mkVar "U" (Some "Wind_U") (Some "x wind")] (Some ["wind_u"]) None (Some ["u10"]) = inl "U".
Proof. reflexivity. Qed.

(** ** C21 *)
Definition point (d : nat) (p : list Qc) : Prop := List.length p = d.
(** the transform kept by the triangulation inverts the edge matrix of the simplex
    with the vertices [vs] and last vertex [r] (the contract of scipy's Delaunay) *)
Definition edge_comb (i : nat) (vs : list (list Qc)) (r : list Qc) (b : list Qc) : Qc :=
  dot (map (fun v => coord i v - coord i r) vs) b.
Definition inverts (d : nat) (T : list (list Qc)) (vs : list (list Qc)) (r : list Qc) : Prop :=
  (forall x, point d x -> forall i, (i < d)%nat -> edge_comb i vs r (bary T r x) = coord i x - coord i r) /\
  (forall x b, point d x -> List.length b = d -> (forall i, (i < d)%nat -> edge_comb i vs r b = coord i x - coord i r) -> bary T r x = b).
Definition simplex (d : nat) (T : list (list Qc)) (vs : list (list Qc)) (r : list Qc) : Prop :=
  List.length T = d /\ List.length vs = d /\ (forall v, In v vs -> point d v) /\ point d r /\ inverts d T vs r.

Lemma edge_expand i vs r b : List.length b = List.length vs ->
  edge_comb i vs r b = dot (map (coord i) vs) b - coord i r * qsum b.
Proof.
  unfold edge_comb, dot. revert b. induction vs as [|v vs IH]; intros [|y b] L; simpl in *; try discriminate; [ring|].
  rewrite IH by lia. ring.
Qed.
Lemma weights_combination d T vs r x : simplex d T vs r -> point d x ->
  combination d (vs ++ [r]) (weights (bary T r x)) x.
Proof.
  intros (LT & LV & PV & PR & I1 & I2) Px i Hi. specialize (I1 x Px i Hi).
  assert (LB : List.length (bary T r x) = List.length vs) by (unfold bary; rewrite map_length; congruence).
  rewrite edge_expand in I1 by auto. unfold weights. rewrite map_app, dot_app by (now rewrite map_length).
  unfold dot at 2. simpl. set (A := dot _ _) in *. set (B := qsum _) in *.
  replace (coord i x) with (coord i x - coord i r + coord i r) by ring. rewrite <- I1. ring.
Qed.
Lemma weights_unique d T vs r x w : simplex d T vs r -> point d x ->
  List.length w = S d -> qsum w = 1 -> combination d (vs ++ [r]) w x -> weights (bary T r x) = w.
Proof.
  intros (LT & LV & PV & PR & I1 & I2) Px Lw Sw C.
  destruct (exists_last (l := w)) as (b & e & ->); [intros ->; discriminate|].
  rewrite app_length in Lw. simpl in Lw. assert (Lb : List.length b = d) by lia.
  rewrite qsum_app in Sw. simpl in Sw. unfold weights.
  assert (E : bary T r x = b).
  { apply I2; auto. intros i Hi. rewrite edge_expand by congruence. specialize (C i Hi).
    rewrite map_app, dot_app in C by (rewrite map_length; congruence). unfold dot at 2 in C. simpl in C. rewrite C.
    replace e with (1 - qsum b). 2:{ rewrite <- Sw. ring. } ring. }
  rewrite E. f_equal. f_equal. rewrite <- Sw. ring.
Qed.

(** A target is treated as outside exactly if it is not in the simplex. *)
Theorem C21_outside_iff_not_in_simplex : forall d T vs r x vtx nearest, simplex d T vs r -> point d x ->
  (is_outside (mkTarget vtx (Some (bary T r x)) nearest) = false <-> in_hull d (vs ++ [r]) x).
Proof.
  intros d T vs r x vtx nr Sx Px. unfold is_outside. cbn [g_bary]. pose proof Sx as (LT & LV & _).
  split.
  - intro H. exists (weights (bary T r x)). split; [|split; [|split]].
    + unfold weights, bary. rewrite !app_length, map_length. simpl. lia.
    + intros c Hc. destruct (Qcltb_spec c 0) as [L|L]; [|qc]. exfalso.
      assert (E : existsb (fun w => Qcltb w 0) (weights (bary T r x)) = true).
      { apply existsb_exists. exists c. split; auto. destruct (Qcltb_spec c 0); auto. }
      rewrite E in H. discriminate.
    + apply weights_sum.
    + now apply weights_combination.
  - intros (w & Lw & Pw & Sw & C). rewrite (weights_unique d T vs r x w Sx Px); auto.
    2:{ rewrite Lw, app_length. simpl. lia. }
    destruct (existsb _ w) eqn:E; auto. apply existsb_exists in E. destruct E as (c & Hc & L).
    specialize (Pw c Hc). destruct (Qcltb_spec c 0); [exfalso; qc|discriminate].
Qed.

(** At inside targets the result is a mean of the vertex values: it lies between
    them, reproduces affine data, and does not depend on the fill settings. *)
Theorem C21_inside : forall d T vs r x (grid : list (list Qc)) vtx nearest fill_nearest fill_value values targets k,
  simplex d T vs r -> point d x ->
  map (fun i => nth i grid []) vtx = (vs ++ [r])%list ->
  in_hull d (vs ++ [r]) x ->
  nth_error targets k = Some (mkTarget vtx (Some (bary T r x)) nearest) ->
  exists v, nth_error (grid_interp false fill_nearest fill_value targets values) k = Some (Some v) /\
    v = dot (take values vtx) (weights (bary T r x)) /\
    (forall lo hi, (forall i, In i vtx -> lo <= nth i values 0 <= hi) -> lo <= v <= hi) /\
    (forall c a, List.length a = d -> (forall i, In i vtx -> nth i values 0 = affine c a (nth i grid [])) -> v = affine c a x).
Proof.
  intros d T vs r x grid vtx nr fn fv values targets k Sx Px Vt Hx Hk.
  pose proof (proj2 (C21_outside_iff_not_in_simplex d T vs r x vtx nr Sx Px) Hx) as In0.
  exists (dot (take values vtx) (weights (bary T r x))).
  assert (Lvtx : List.length vtx = S d).
  { apply (f_equal (@List.length _)) in Vt. rewrite map_length, app_length in Vt. simpl in Vt. destruct Sx as (_ & L & _). lia. }
  assert (LW : List.length (weights (bary T r x)) = S d).
  { unfold weights, bary. rewrite app_length, map_length. simpl. destruct Sx as (L & _). lia. }
  assert (LT : List.length (take values vtx) = List.length (weights (bary T r x))) by (unfold take; rewrite map_length; lia).
  assert (NW : forall w, In w (weights (bary T r x)) -> 0 <= w).
  { intros w Hw. unfold is_outside in In0. cbn [g_bary] in In0. destruct (Qcltb_spec w 0) as [L|L]; [|qc].
    assert (E : existsb (fun w => Qcltb w 0) (weights (bary T r x)) = true).
    { apply existsb_exists. exists w. split; auto. destruct (Qcltb_spec w 0); auto. }
    rewrite E in In0. discriminate. }
  split; [|split; [reflexivity|split]].
  - unfold grid_interp. rewrite nth_error_map, Hk. cbn [option_map]. rewrite In0. reflexivity.
  - intros lo hi B.
    assert (B' : forall y, In y (take values vtx) -> lo <= y <= hi).
    { intros y Hy. apply in_map_iff in Hy. destruct Hy as (i & <- & Hi). auto. }
    pose proof (dot_lower lo _ _ LT NW (fun y Hy => proj1 (B' y Hy))) as G1.
    pose proof (dot_upper hi _ _ LT NW (fun y Hy => proj2 (B' y Hy))) as G2.
    rewrite weights_sum, Qcmult_1_r in G1, G2. split; auto.
  - intros c a La A.
    assert (E : take values vtx = map (affine c a) (vs ++ [r])).
    { rewrite <- Vt, map_map. unfold take. apply map_ext_in. auto. }
    rewrite E. eapply affine_dot; eauto.
    + rewrite LW. apply (f_equal (@List.length _)) in Vt. rewrite map_length in Vt. congruence.
    + destruct Sx as (_ & _ & PV & PR & _). intros v Hv. apply in_app_or in Hv. destruct Hv as [Hv|[<-|[]]]; [now apply PV|exact PR].
    + apply weights_sum.
    + now apply weights_combination.
Qed.

(** At outside targets, and everywhere if the triangulation failed, the result is the
    nearest source value or the fill value as configured. *)
Theorem C21_outside : forall failed fill_nearest fill_value values targets k g,
  nth_error targets k = Some g -> (failed = true \/ is_outside g = true) ->
  nth_error (grid_interp failed fill_nearest fill_value targets values) k =
    Some (if fill_nearest then Some (nth (g_nearest g) values 0) else fill_value).
Proof.
  intros failed fn fv values targets k g Hk O. unfold grid_interp. destruct failed.
  - rewrite nth_error_map, Hk. reflexivity.
  - destruct O as [O|O]; [discriminate|]. rewrite nth_error_map, Hk. cbn [option_map]. rewrite O.
    assert (E : existsb is_outside targets = true) by (apply existsb_exists; exists g; split; auto; eapply nth_error_In; eauto).
    rewrite E, andb_true_r. reflexivity.
Qed.

(** Restricting the source grid to the bounding rows and columns keeps values and
    coordinates paired, and loses no node of the box. *)
Lemma slice_map {A B} (f : A -> B) lo hi l : slice lo hi (map f l) = map f (slice lo hi l).
Proof. unfold slice. now rewrite skipn_map, firstn_map. Qed.
Theorem C21_subset_keeps_pairs : forall (A B C : Type) (f : A -> B) (g : A -> C) r0 r1 c0 c1 (grid : list (list A)),
  subset r0 r1 c0 c1 (map (map f) grid) = map f (subset r0 r1 c0 c1 grid) /\
  combine (subset r0 r1 c0 c1 (map (map f) grid)) (subset r0 r1 c0 c1 (map (map g) grid)) =
    map (fun a => (f a, g a)) (subset r0 r1 c0 c1 grid).
Proof.
  intros A B C f g r0 r1 c0 c1 grid.
  assert (E : forall (D : Type) (h : A -> D), subset r0 r1 c0 c1 (map (map h) grid) = map h (subset r0 r1 c0 c1 grid)).
  { intros D h. unfold subset. rewrite slice_map, map_map, concat_map, map_map. f_equal. apply map_ext. intro l. apply slice_map. }
  split; [apply E|]. rewrite !E. clear E.
  induction (subset r0 r1 c0 c1 grid) as [|a l IH]; simpl; [reflexivity|]. f_equal. exact IH.
Qed.
Theorem C21_subset_has_nodes : forall (A : Type) r0 r1 c0 c1 (grid : list (list A)) i j row a,
  (r0 <= i < r1)%nat -> (c0 <= j < c1)%nat -> nth_error grid i = Some row -> nth_error row j = Some a ->
  In a (subset r0 r1 c0 c1 grid).
Proof.
  intros A r0 r1 c0 c1 grid i j row a Hi Hj Hr Ha.
  assert (S : forall (B : Type) lo hi k (l : list B) x, (lo <= k < hi)%nat -> nth_error l k = Some x -> In x (slice lo hi l)).
  { intros B lo hi k l x Hk Hx. unfold slice. apply nth_error_In with (n := (k - lo)%nat).
    assert (F : forall n m (q : list B), (m < n)%nat -> nth_error (firstn n q) m = nth_error q m).
    { clear. induction n; intros m q L; [lia|]. destruct q, m; simpl; auto. apply IHn. lia. }
    rewrite F by lia. assert (G : forall n m (q : list B), nth_error (skipn n q) m = nth_error q (n + m)).
    { clear. induction n; intros m q; [reflexivity|]. destruct q; simpl; [now destruct m|apply IHn]. }
    rewrite G. replace (lo + (k - lo))%nat with k by lia. exact Hx. }
  unfold subset. apply in_concat. exists (slice c0 c1 row). split; [apply in_map; eauto|eauto].
Qed.

(** a triangle with an inside and an outside target *)
Definition ex_T : list (list Qc) := [[1; 0]; [0; 1]].
Definition ex_vs : list (list Qc) := [[1; 0]; [0; 1]].
Definition ex_r : list Qc := [0; 0].
Example ex_simplex : simplex 2 ex_T ex_vs ex_r.
Proof.
  assert (B : forall x y, bary ex_T ex_r [x; y] = [x; y]).
  { intros x y. unfold bary, ex_T, ex_r, dot. simpl. f_equal; [ring|]. f_equal; ring. }
  split; [reflexivity|]. split; [reflexivity|]. split; [intros v [<-|[<-|[]]]; reflexivity|]. split; [reflexivity|].
  split.
  - intros x Hx i Hi. destruct x as [|a [|b [|? ?]]]; try discriminate. rewrite B.
    destruct i as [|[|i]]; [..|lia]; unfold edge_comb, dot, coord; simpl; ring.
  - intros x b Hx Hb H. destruct x as [|a1 [|a2 [|? ?]]]; try discriminate. destruct b as [|b1 [|b2 [|? ?]]]; try discriminate.
    rewrite B. pose proof (H 0%nat ltac:(lia)) as H0. pose proof (H 1%nat ltac:(lia)) as H1.
    unfold edge_comb, dot, coord in H0, H1. simpl in H0, H1.
    assert (E1 : a1 = b1) by (transitivity (a1 - 0); [ring|rewrite <- H0; ring]).
    assert (E2 : a2 = b2) by (transitivity (a2 - 0); [ring|rewrite <- H1; ring]).
    now rewrite E1, E2.
Qed.
Example ex_grid : grid_interp false true None
    [mkTarget [0; 1; 2]%nat (Some (bary ex_T ex_r [qq 1 4; qq 1 2])) 0%nat; mkTarget [0; 1; 2]%nat (Some (bary ex_T ex_r [1; 1])) 1%nat]
    [qz 8; qz 4; qz 0] = [Some (qq 4 1); Some (qz 4)].
Proof. vm_compute. reflexivity. Qed.

Print Assumptions C16_find_time_stamp.
Print Assumptions C17_search_over_files.
Print Assumptions C17_file_order_irrelevant.
Print Assumptions C17_overlap_refuted.
Print Assumptions C18_cache_transparent.
Print Assumptions C18_linear_between_stamps.
Print Assumptions C18_just_before_stamp.
Print Assumptions C18_last_stamp_refuted.
Print Assumptions C18_dense_stamps_refuted.
Print Assumptions C19_parse_round_trip.
Print Assumptions C19_start_times_ordered.
Print Assumptions C19_daily_search.
Print Assumptions C19_requested_day.
Print Assumptions C19_missing_day_refuted.
Print Assumptions C20_lookup.
Print Assumptions C20_unique_standard_name.
Print Assumptions C20_precedence_refuted.
Print Assumptions C20_upper_case_refuted.
Print Assumptions C21_outside_iff_not_in_simplex.
Print Assumptions C21_inside.
Print Assumptions C21_outside.
Print Assumptions C21_subset_keeps_pairs.
Print Assumptions C21_subset_has_nodes.
