(** Clauses of C07, C18, C20 and C21 added after wrong programs survived. *)
From Coq Require Import String Ascii List Lia ZArith QArith Qcanon Bool.
From Verif Require Import Num Exporter_Model Callback_Proofs Interp_Model Interp_Spec Interp_Proofs Interp_Proofs2.
Import ListNotations.
Open Scope Qc_scope.

(** ** C07: adding a field registers its own preprocessor and touches no other. *)
Theorem C07_preprocessor_registered : forall h m field k next fn other,
  let h' := fst (add_export h m field k next (Some fn)) in
  let m' := snd (add_export h m field k next (Some fn)) in
  dict_get (h' (m_preproc m')) field = Some fn /\
  (other <> field -> dict_get (h' (m_preproc m')) other = dict_get (h (m_preproc m)) other) /\
  (forall r, r <> m_preproc m -> h' r = h r).
Proof.
  intros h m field k next fn other h' m'. unfold h', m', add_export. cbn [fst snd m_preproc].
  rewrite PeanoNat.Nat.eqb_refl. split; [|split].
  - rewrite dict_get_set, String.eqb_refl. reflexivity.
  - intro N. rewrite dict_get_set. destruct (String.eqb_spec other field); [contradiction|reflexivity].
  - intros r N. destruct (PeanoNat.Nat.eqb_spec r (m_preproc m)); [contradiction|reflexivity].
Qed.

(** A field added without preprocessor leaves all of them alone. *)
Theorem C07_no_preprocessor : forall h m field k next,
  fst (add_export h m field k next None) = h /\ m_preproc (snd (add_export h m field k next None)) = m_preproc m.
Proof. intros. split; reflexivity. Qed.

(** ** C18: nothing is extrapolated. *)
Theorem C18_no_extrapolation : forall t a b prev next vals, a < b ->
  interp_values t a b prev next = inl vals ->
  a - qq 1 1000000 * (b - a) <= t /\ t <= b + qq 1 1000000 * (b - a).
Proof.
  intros t a b prev next vals L E. unfold interp_values in E.
  destruct (Qceqb (b - a) 0) eqn:Z; [discriminate|].
  destruct (Qcleb (0 - TOL) ((t - a) / (b - a)) && Qcleb ((t - a) / (b - a)) (1 + TOL))%bool eqn:G; [|discriminate].
  apply andb_prop in G. destruct G as (G1 & G2). clear E.
  assert (P : 0 < b - a) by qc.
  assert (NZ : b - a <> 0) by (intro F; rewrite F in P; exact (Qclt_not_le _ _ P (Qcle_refl _))).
  assert (M : (t - a) / (b - a) * (b - a) = t - a) by (field; exact NZ).
  destruct (Qcleb_spec (0 - TOL) ((t - a) / (b - a))) as [G1'|]; [|discriminate]. destruct (Qcleb_spec ((t - a) / (b - a)) (1 + TOL)) as [G2'|]; [|discriminate]. clear G1 G2. rename G1' into G1, G2' into G2. unfold TOL in *.
  set (q := (t - a) / (b - a)) in *.
  assert (H1 : (0 - qq 1 1000000) * (b - a) <= q * (b - a)) by (apply Qcmult_le_compat_r; [exact G1|apply Qclt_le_weak; exact P]).
  assert (H2 : q * (b - a) <= (1 + qq 1 1000000) * (b - a)) by (apply Qcmult_le_compat_r; [exact G2|apply Qclt_le_weak; exact P]).
  rewrite M in H1, H2. split.
  - replace ((0 - qq 1 1000000) * (b - a)) with (- (qq 1 1000000 * (b - a))) in H1 by ring.
    set (e := qq 1 1000000 * (b - a)) in *. clearbody e. clear - H1. qc.
  - replace ((1 + qq 1 1000000) * (b - a)) with (b - a + qq 1 1000000 * (b - a)) in H2 by ring.
    set (e := qq 1 1000000 * (b - a)) in *. clearbody e. clear - H2. qc.
Qed.

(** Scaling factors multiply the interpolated values, field by field. *)
Theorem C18_scalars : forall find reader c t vals ss, List.length ss = List.length vals ->
  fst (interp_call find reader c t) = inl vals ->
  exists out, fst (series_call find reader (Some ss) c t) = inl out /\ List.length out = List.length vals /\
    (forall k v s, nth_error vals k = Some v -> nth_error ss k = Some s -> nth_error out k = Some (v * s)) /\
    fst (series_call find reader None c t) = inl vals.
Proof.
  intros find reader c t vals ss L E. unfold series_call. destruct (interp_call find reader c t) as [r c'].
  cbn [fst] in *. subst r. eexists. split; [reflexivity|]. split; [|split; [|reflexivity]].
  - rewrite map_length, combine_length, L. apply PeanoNat.Nat.min_id.
  - clear L. intros k v s. revert ss k. induction vals as [|x vals IH]; intros [|y ss] [|k] Hv Hs; try discriminate; cbn in *.
    + congruence.
    + apply IH; assumption.
Qed.

(** ** C20: asking for nothing is refused, finding nothing is reported. *)
Theorem C20_no_criterion : forall vars vn, get_ncvar_name vars None None vn = inr NcAssertion.
Proof. reflexivity. Qed.
Theorem C20_not_found : forall vars sn ln vn, (sn <> None \/ ln <> None) ->
  (forall v, In v vars -> var_matches (match sn with Some x => x | None => [] end) (match ln with Some x => x | None => [] end)
      (match vn with Some x => x | None => [] end) v = false) ->
  get_ncvar_name vars sn ln vn = inr NcValue.
Proof.
  intros vars sn ln vn H N.
  assert (F : forall a b c l, (forall v, In v l -> var_matches a b c v = false) -> first_match a b c l = None).
  { clear. induction l as [|v l IH]; intro H; [reflexivity|]. cbn. rewrite (H v (or_introl eq_refl)).
    apply IH. intros; apply H; right; assumption. }
  unfold get_ncvar_name. destruct sn, ln; try (rewrite F by exact N; reflexivity). destruct H; contradiction.
Qed.

(** ** C21: a target without finite weights is filled like one outside. *)
Theorem C21_degenerate_simplex : forall fill_nearest fill_value values targets k vtx nearest,
  nth_error targets k = Some (mkTarget vtx None nearest) ->
  nth_error (grid_interp false fill_nearest fill_value targets values) k =
    Some (if fill_nearest then Some (nth nearest values 0) else fill_value).
Proof.
  intros fn fv values targets k vtx nearest Hk. unfold grid_interp. rewrite nth_error_map, Hk. cbn [option_map].
  assert (E : existsb is_outside targets = true).
  { apply existsb_exists. exists (mkTarget vtx None nearest). split; [eapply nth_error_In; exact Hk|reflexivity]. }
  rewrite E, andb_true_r. reflexivity.
Qed.

(** The subset consists of the nodes of the box and of nothing else, row by row. *)
Lemma slice_nth : forall A (lo hi : nat) (l : list A) k,
  nth_error (slice lo hi l) k = if (k <? hi - lo)%nat then nth_error l (lo + k) else None.
Proof.
  intros A lo hi l k. unfold slice.
  assert (G : forall n m (q : list A), nth_error (skipn n q) m = nth_error q (n + m)).
  { clear. induction n; intros m q; [reflexivity|]. destruct q; cbn; [destruct m; reflexivity|apply IHn]. }
  assert (F : forall n m (q : list A), nth_error (firstn n q) m = if (m <? n)%nat then nth_error q m else None).
  { clear. induction n; intros m q; cbn [firstn].
    - destruct m; reflexivity.
    - destruct q as [|x q], m as [|m]; try reflexivity.
      + cbn [nth_error]. destruct (S m <? S n)%nat; reflexivity.
      + cbn [nth_error]. rewrite IHn. reflexivity. }
  rewrite F, G. reflexivity.
Qed.
Theorem C21_subset_only_box : forall (A : Type) r0 r1 c0 c1 (grid : list (list A)) a,
  In a (subset r0 r1 c0 c1 grid) <->
  exists i j row, (r0 <= i < r1)%nat /\ (c0 <= j < c1)%nat /\ nth_error grid i = Some row /\ nth_error row j = Some a.
Proof.
  intros A r0 r1 c0 c1 grid a.
  assert (S : forall B lo hi (l : list B) x, In x (slice lo hi l) <-> exists k, (lo <= k < hi)%nat /\ nth_error l k = Some x).
  { intros B lo hi l x. split.
    - intro H. apply In_nth_error in H. destruct H as (k & H). rewrite slice_nth in H.
      destruct (PeanoNat.Nat.ltb_spec k (hi - lo)); [|discriminate]. exists (lo + k)%nat. split; [lia|exact H].
    - intros (k & Hk & E). apply nth_error_In with (n := (k - lo)%nat). rewrite slice_nth.
      destruct (PeanoNat.Nat.ltb_spec (k - lo) (hi - lo)); [|lia]. replace (lo + (k - lo))%nat with k by lia. exact E. }
  unfold subset. rewrite in_concat. split.
  - intros (l & Hl & Ha). apply in_map_iff in Hl. destruct Hl as (row & <- & Hr). apply S in Hr. apply S in Ha.
    destruct Hr as (i & Hi & Ei), Ha as (j & Hj & Ej). exists i, j, row. repeat split; try assumption; lia.
  - intros (i & j & row & Hi & Hj & Ei & Ej). exists (slice c0 c1 row). split.
    + apply in_map. apply S. exists i. split; assumption.
    + apply S. exists j. split; assumption.
Qed.
Example ex_subset : subset 1 3 0 2 [[1; 2; 3]; [4; 5; 6]; [7; 8; 9]]%nat = [4; 5; 7; 8]%nat. Proof. reflexivity. Qed.

Print Assumptions C18_no_extrapolation.
Print Assumptions C21_subset_only_box.
