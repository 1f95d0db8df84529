(** C62, continued: ocean model data, generic two-dimensional data and tides. *)
From Coq Require Import Reals List String Bool Arith Lra Lia Sorting.Sorted.
From Verif Require Import Forcing_Model P_Forcing.
Import ListNotations.
Open Scope string_scope.
Open Scope R_scope.
Open Scope list_scope.

(* ------------------------------------------------------------------ *)
(** * The vertical coordinate of ROMS data *)

(** Properties of the stretching curves that every ROMS file has: they run from (-1, -1) at
    the bottom to (0, 0) at the surface and both increase. *)
Definition roms_levels (levels : list (R * R)) : Prop :=
  hd (0, 0) levels = (-1, -1) /\ last levels (1, 1) = (0, 0) /\
  StronglySorted (fun p q => fst p < fst q /\ snd p < snd q) levels.

Lemma roms_w_mono : forall hc zeta bath s cs s' cs', 0 <= hc -> 0 < bath -> - bath < zeta ->
  s < s' -> cs < cs' -> roms_w hc zeta bath s cs < roms_w hc zeta bath s' cs'.
Proof.
  intros hc zeta bath s cs s' cs' Hh Hb Hz Hs Hc. unfold roms_w, roms_s. cbv zeta.
  set (a := (hc * s + bath * cs) / (hc + bath)). set (b := (hc * s' + bath * cs') / (hc + bath)).
  assert (a < b).
  { unfold a, b, Rdiv. apply Rmult_lt_compat_r; [apply Rinv_0_lt_compat; lra|].
    assert (hc * s <= hc * s') by (apply Rmult_le_compat_l; lra).
    assert (bath * cs < bath * cs') by (apply Rmult_lt_compat_l; lra). lra. }
  assert (0 < (b - a) * (zeta + bath)) by (apply Rmult_lt_0_compat; lra). lra.
Qed.
Lemma roms_w_bottom : forall hc zeta bath, 0 <= hc -> 0 < bath -> roms_w hc zeta bath (-1) (-1) = - bath.
Proof. intros. unfold roms_w, roms_s. cbv zeta. field. lra. Qed.
Lemma roms_w_surface : forall hc zeta bath, 0 <= hc -> 0 < bath -> roms_w hc zeta bath 0 0 = zeta.
Proof. intros. unfold roms_w, roms_s. cbv zeta. field. lra. Qed.

Lemma sorted_map_lt : forall (F : R * R -> R) (P : R * R -> R * R -> Prop) l,
  (forall p q, P p q -> F p < F q) -> StronglySorted P l -> StronglySorted Rlt (map F l).
Proof.
  intros F P l H S. induction S as [|a l S IH A]; cbn [map]; constructor; [exact IH|].
  rewrite Forall_forall in A |- *. intros y Hy. apply in_map_iff in Hy. destruct Hy as (q & <- & Hq).
  apply H, A, Hq.
Qed.
Lemma sorted_last : forall w d, StronglySorted Rlt w -> forall x, In x w -> x <= last w d.
Proof.
  intros w d S. induction S as [|a l S IH A]; intros x Hx; [destruct Hx|].
  destruct l as [|b r]; [destruct Hx as [E|[]]; subst; cbn; lra|].
  change (last (a :: b :: r) d) with (last (b :: r) d).
  destruct Hx as [E|Hx]; [|apply IH; exact Hx]. subst x.
  rewrite Forall_forall in A. pose proof (A b (or_introl eq_refl)). pose proof (IH b (or_introl eq_refl)). lra.
Qed.
(** every midpoint lies strictly between the smallest and the largest value, and they increase *)
Lemma midpoints_sorted : forall w, StronglySorted Rlt w ->
  StronglySorted Rlt (midpoints w) /\
  (forall m, In m (midpoints w) -> hd 0 w < m < last w 0).
Proof.
  intros w S. induction S as [|a l S IH A]; [split; [constructor|intros m []]|].
  destruct l as [|b r]; [cbn; split; [constructor|intros m []]|].
  destruct IH as [I1 I2].
  change (midpoints (a :: b :: r)) with (0.5 * (b + a) :: midpoints (b :: r)).
  pose proof (Forall_inv A) as AB. cbn beta in AB.
  assert (HM : forall m, In m (midpoints (b :: r)) -> 0.5 * (b + a) < m).
  { intros m Hm. destruct (I2 m Hm) as [J _]. cbn [hd] in J. lra. }
  split.
  - constructor; [exact I1|]. rewrite Forall_forall. exact HM.
  - intros m [<-|Hm].
    + cbn [hd]. pose proof (sorted_last (b :: r) 0 S b (or_introl eq_refl)) as J.
      change (last (a :: b :: r) 0) with (last (b :: r) 0). lra.
    + cbn [hd]. change (last (a :: b :: r) 0) with (last (b :: r) 0).
      destruct (I2 m Hm) as [J1 J2]. pose proof (HM m Hm). lra.
Qed.
Lemma midpoints_length : forall w, List.length (midpoints w) = (List.length w - 1)%nat.
Proof.
  induction w as [|a [|b r] IH]; [reflexivity|reflexivity|].
  change (midpoints (a :: b :: r)) with (0.5 * (b + a) :: midpoints (b :: r)). cbn [List.length] in *. lia.
Qed.
Lemma sorted_app_last : forall l x, StronglySorted Rlt l -> (forall y, In y l -> y < x) -> StronglySorted Rlt (l ++ [x]).
Proof.
  intros l x S H. induction S as [|a l S IH A]; cbn; [repeat constructor|].
  constructor.
  - apply IH. intros y Hy. apply H. right. exact Hy.
  - rewrite Forall_forall in A |- *. intros y Hy. apply in_app_or in Hy. destruct Hy as [Hy|[E|[]]].
    + apply A, Hy. + subst. apply H. left. reflexivity.
Qed.
Lemma sorted_prefix : forall l r, StronglySorted Rlt (l ++ r) -> StronglySorted Rlt l.
Proof.
  induction l as [|a l IH]; intros r MS; [constructor|].
  cbn in MS. apply StronglySorted_inv in MS. destruct MS as [S A]. constructor; [eapply IH; exact S|].
  rewrite Forall_forall in A |- *. intros y Hy. apply A. apply in_or_app. left. exact Hy.
Qed.
Lemma last_map : forall (F : R * R -> R) l d e, l <> [] -> last (map F l) e = F (last l d).
Proof.
  induction l as [|a [|b r] IH]; intros d e H; [congruence|reflexivity|].
  change (map F (a :: b :: r)) with (F a :: map F (b :: r)).
  change (last (F a :: map F (b :: r)) e) with (last (map F (b :: r)) e).
  change (last (a :: b :: r) d) with (last (b :: r) d). apply IH. discriminate.
Qed.

(** The data points of a wet column run from the bottom to the free surface, one per layer, in
    increasing order. *)
Theorem C62_roms_column : forall hc zeta bath levels,
  0 <= hc -> 0 < bath -> - bath < zeta -> roms_levels levels -> (3 <= List.length levels)%nat ->
  let g := roms_grid hc zeta bath levels in
  List.length g = (List.length levels - 1)%nat /\
  hd 1 g = - bath /\ last g 1 = zeta /\ StronglySorted Rlt g /\
  (forall z, In z g -> - bath <= z <= zeta).
Proof.
  intros hc zeta bath levels Hh Hb Hz (L0 & L1 & LS) LN g.
  set (F := fun p : R * R => roms_w hc zeta bath (fst p) (snd p)) in *.
  set (w := map F levels).
  assert (WS : StronglySorted Rlt w).
  { unfold w. eapply sorted_map_lt; [|exact LS]. intros p q [A B]. unfold F. apply roms_w_mono; assumption. }
  assert (W0 : hd 0 w = - bath).
  { unfold w. destruct levels as [|a r]; [cbn in LN; lia|]. cbn [hd map] in *. subst a. unfold F. cbn [fst snd].
    apply roms_w_bottom; assumption. }
  assert (WL : last w 0 = zeta).
  { unfold w. rewrite (last_map F levels (1, 1) 0) by (destruct levels; [cbn in LN; lia|discriminate]).
    rewrite L1. unfold F. cbn [fst snd]. apply roms_w_surface; assumption. }
  destruct (midpoints_sorted w WS) as [MS MB]. rewrite W0, WL in MB.
  assert (ML : List.length (midpoints w) = (List.length levels - 1)%nat).
  { rewrite midpoints_length. unfold w. rewrite map_length. reflexivity. }
  assert (G : g = set_last (set_first (midpoints w) (- bath)) zeta).
  { unfold g, roms_grid. fold F. fold w. cbv zeta. rewrite W0, WL. reflexivity. }
  destruct (midpoints w) as [|m1 [|m2 ms]] eqn:EM; [cbn in ML; lia|cbn in ML; lia|].
  cbn [set_first] in G. unfold set_last in G.
  set (tl := removelast (m2 :: ms)).
  assert (RL : removelast (- bath :: m2 :: ms) = - bath :: tl) by reflexivity.
  rewrite RL in G.
  assert (MSP : m2 :: ms = tl ++ [last (m2 :: ms) 0]) by (apply app_removelast_last; discriminate).
  apply StronglySorted_inv in MS. destruct MS as [MS _].
  assert (TS : StronglySorted Rlt tl).
  { rewrite MSP in MS. exact (sorted_prefix _ _ MS). }
  assert (TB : forall y, In y tl -> - bath < y < zeta).
  { intros y Hy. apply MB. right. rewrite MSP. apply in_or_app. left. exact Hy. }
  rewrite G. split.
  { rewrite <- ML. cbn [List.length app]. rewrite app_length. cbn [List.length].
    pose proof (f_equal (@List.length R) MSP) as E. rewrite app_length in E. cbn [List.length] in E. lia. }
  split; [reflexivity|]. split.
  { apply (last_last (- bath :: tl)). }
  split.
  { cbn [app]. constructor.
    - apply sorted_app_last; [exact TS|]. intros y Hy. apply TB, Hy.
    - rewrite Forall_forall. intros y Hy. apply in_app_or in Hy. destruct Hy as [Hy|[E|[]]].
      + apply TB, Hy. + rewrite <- E. exact Hz. }
  { intros z Hin. cbn [app] in Hin. destruct Hin as [E|Hin]; [rewrite <- E; lra|].
    apply in_app_or in Hin. destruct Hin as [Hy|[E|[]]].
    - pose proof (TB z Hy). lra. - rewrite <- E. lra. }
Qed.
Example ex_roms_levels : roms_levels [(-1, -1); (-1/2, -1/4); (-1/4, -1/16); (0, 0)].
Proof.
  unfold roms_levels. split; [reflexivity|]. split; [reflexivity|].
  repeat constructor; cbn; lra.
Qed.

(** A constant elevation of exactly zero is taken as "not given". *)
Theorem C62_roms_zero_elevation_refuted : forall file_zeta,
  roms_zeta (Some 0) file_zeta = file_zeta /\ (forall z, z <> 0 -> roms_zeta (Some z) file_zeta = z).
Proof.
  intros f. unfold roms_zeta. split.
  - destruct (Req_EM_T 0 0); [reflexivity|congruence].
  - intros z Hz. destruct (Req_EM_T z 0); [congruence|reflexivity].
Qed.

(* ------------------------------------------------------------------ *)
(** * Source points and data stay together *)

Definition ncom_support (levels : nat) (idx : list nat) (mask : nat -> nat -> bool) : list (nat * nat) :=
  filter (fun p => mask (fst p) (snd p)) (list_prod (seq 0 levels) idx).
Lemma ncom_flatten_support : forall A levels idx mask (a : nat -> nat -> A),
  ncom_flatten levels idx mask a = map (fun p => a (fst p) (snd p)) (ncom_support levels idx mask).
Proof.
  intros A levels idx mask a. unfold ncom_flatten, ncom_support.
  generalize (seq 0 levels) as ks. induction ks as [|k ks IH]; [reflexivity|].
  cbn [flat_map list_prod]. rewrite filter_app, map_app, IH. f_equal. clear IH.
  induction idx as [|j r IHr]; [reflexivity|]. cbn [flat_map map filter fst snd].
  rewrite IHr. destruct (mask k j); reflexivity.
Qed.
Definition roms_support (levels : nat) (idx : list nat) (mask : nat -> bool) : list (nat * nat) :=
  list_prod (seq 0 levels) (filter mask idx).
Lemma roms_flatten_support : forall A levels idx mask (a : nat -> nat -> A),
  roms_flatten levels idx mask a = map (fun p => a (fst p) (snd p)) (roms_support levels idx mask).
Proof.
  intros A levels idx mask a. unfold roms_flatten, roms_support.
  generalize (seq 0 levels) as ks. induction ks as [|k ks IH]; [reflexivity|].
  cbn [flat_map list_prod]. rewrite map_app, IH. f_equal. rewrite map_map. reflexivity.
Qed.
Lemma combine_map2 : forall A B C (f : A -> B) (g : A -> C) l,
  combine (map f l) (map g l) = map (fun x => (f x, g x)) l.
Proof. induction l as [|a r IH]; [reflexivity|]. cbn. rewrite IH. reflexivity. Qed.
Lemma NoDup_prod : forall (ks idx : list nat), NoDup ks -> NoDup idx -> NoDup (list_prod ks idx).
Proof.
  intros ks idx K N. induction K as [|k ks H K IH]; [constructor|]. cbn [list_prod].
  assert (E : forall l : list (nat * nat), NoDup l -> (forall p, In p l -> fst p <> k) ->
            forall idx' : list nat, NoDup idx' -> NoDup (map (fun y => (k, y)) idx' ++ l)).
  { intros l NL HL idx' N'. induction N' as [|j r Hj N' IHr]; [exact NL|]. cbn [map app]. constructor; [|exact IHr].
    intro Hin. apply in_app_or in Hin. destruct Hin as [Hin|Hin].
    - apply in_map_iff in Hin. destruct Hin as (x & E & Hx). injection E as <-. exact (Hj Hx).
    - exact (HL _ Hin eq_refl). }
  apply E; [exact IH| |exact N].
  intros [k' j] Hp. apply in_prod_iff in Hp. cbn. intros ->. tauto.
Qed.

(** The list of source coordinates and the list of source values have the same order: a value
    read later for (level, node) is attached to the coordinates computed for (level, node), and
    exactly the valid points take part, each once. *)
Theorem C62_ncom_points : forall A levels idx mask (coord : nat -> nat -> A) (value : nat -> nat -> R),
  NoDup idx ->
  let pairs := combine (ncom_flatten levels idx mask coord) (ncom_flatten levels idx mask value) in
  exists support, NoDup support /\
    (forall k j, In (k, j) support <-> (k < levels)%nat /\ In j idx /\ mask k j = true) /\
    pairs = map (fun p => (coord (fst p) (snd p), value (fst p) (snd p))) support.
Proof.
  intros A levels idx mask coord value ND pairs.
  exists (ncom_support levels idx mask). split.
  { unfold ncom_support. apply NoDup_filter.
    apply NoDup_prod; [apply seq_NoDup|exact ND]. }
  split.
  { intros k j. unfold ncom_support. rewrite filter_In, in_prod_iff, in_seq. cbn [fst snd]. intuition lia. }
  unfold pairs. rewrite !ncom_flatten_support. apply combine_map2.
Qed.
Theorem C62_roms_points : forall A levels idx mask (coord : nat -> nat -> A) (value : nat -> nat -> R),
  NoDup idx ->
  let pairs := combine (roms_flatten levels idx mask coord) (roms_flatten levels idx mask value) in
  exists support, NoDup support /\
    (forall k j, In (k, j) support <-> (k < levels)%nat /\ In j idx /\ mask j = true) /\
    pairs = map (fun p => (coord (fst p) (snd p), value (fst p) (snd p))) support.
Proof.
  intros A levels idx mask coord value ND pairs.
  exists (roms_support levels idx mask). split.
  { unfold roms_support. apply NoDup_prod; [apply seq_NoDup|apply NoDup_filter; exact ND]. }
  split.
  { intros k j. unfold roms_support. rewrite in_prod_iff, in_seq, filter_In. intuition lia. }
  unfold pairs. rewrite !roms_flatten_support. apply combine_map2.
Qed.
Example ex_ncom_points :
  ncom_flatten 2 [4; 7]%nat (fun k j => negb (Nat.eqb k 1 && Nat.eqb j 4)) (fun k j => (k, j))
  = [(0, 4); (0, 7); (1, 7)]%nat /\
  roms_flatten 2 [4; 7; 9]%nat (fun j => negb (Nat.eqb j 7)) (fun k j => (k, j))
  = [(0, 4); (0, 9); (1, 4); (1, 9)]%nat.
Proof. split; reflexivity. Qed.

(* ------------------------------------------------------------------ *)
(** * NCOM fields *)

Lemma mem_in : forall x l, mem x l = true <-> In x l.
Proof.
  intros x l. unfold mem. rewrite existsb_exists. split.
  - intros (y & H & E). apply String.eqb_eq in E. subst. exact H.
  - intro H. exists x. split; [exact H|apply String.eqb_refl].
Qed.
Lemma remove_first_in : forall x y l, NoDup l -> (In y (remove_first x l) <-> In y l /\ y <> x).
Proof.
  intros x y l N. induction N as [|a l H N IH]; [cbn; tauto|]. cbn [remove_first].
  destruct (String.eqb_spec x a) as [->|D].
  - split; [intro Hy; split; [right; exact Hy|intros ->; exact (H Hy)]|intros [[E|Hy] Q]; [congruence|exact Hy]].
  - cbn [In]. rewrite IH. split; [intros [->|[A B]]; [split; [auto|congruence]|auto]|intros [[E|A] B]; auto].
Qed.
Lemma remove_first_nodup : forall x l, NoDup l -> NoDup (remove_first x l).
Proof.
  intros x l N. induction N as [|a l H N IH]; [constructor|]. cbn [remove_first].
  destruct (String.eqb_spec x a); [exact N|]. constructor; [|exact IH].
  rewrite remove_first_in by exact N. tauto.
Qed.
Lemma fold_put : forall val names d x,
  fold_left (fun d n => put d n (val n)) names d x = if mem x names then val x else d x.
Proof.
  intros val names. induction names as [|a l IH]; intros d x; [reflexivity|]. cbn [fold_left]. rewrite IH.
  change (mem x (a :: l)) with (String.eqb x a || mem x l)%bool.
  unfold put. destruct (mem x l) eqn:E; [rewrite orb_true_r; reflexivity|].
  rewrite orb_false_r. destruct (String.eqb_spec x a); [subst; reflexivity|reflexivity].
Qed.

(** Every requested field receives its own variable; the two velocity components are turned to
    mesh coordinates exactly when both are requested; other fields are not touched. *)
Theorem C62_ncom_fields : forall names theta val d d', NoDup names ->
  set_ncom names (projection_rotator theta) val d = Done d' ->
  let both := In "U_Velocity" names /\ In "V_Velocity" names in
  (both -> forall i,
     d' "U_Velocity" i = cos (theta i) * val "U_Velocity" i - sin (theta i) * val "V_Velocity" i /\
     d' "V_Velocity" i = sin (theta i) * val "U_Velocity" i + cos (theta i) * val "V_Velocity" i) /\
  (forall x, In x names -> ~ (both /\ (x = "U_Velocity" \/ x = "V_Velocity")) -> d' x = val x) /\
  (forall x, ~ In x names -> d' x = d x).
Proof.
  intros names theta val d d' N H both.
  unfold set_ncom, projection_rotator, scalar_names in H.
  assert (RB : rotates names = true <-> both).
  { unfold rotates, both. rewrite andb_true_iff, !mem_in. tauto. }
  destruct (rotates names) eqn:ER.
  - assert (B : both) by (apply RB; reflexivity).
    apply done_inj in H. subst d'.
    set (sn := remove_first "V_Velocity" (remove_first "U_Velocity" names)).
    assert (SN : forall x, In x sn <-> In x names /\ x <> "U_Velocity" /\ x <> "V_Velocity").
    { intro x. unfold sn. rewrite remove_first_in by (apply remove_first_nodup; exact N).
      rewrite remove_first_in by exact N. tauto. }
    assert (NM : forall x, ~ In x sn -> mem x sn = false).
    { intros x Hx. destruct (mem x sn) eqn:E; [|reflexivity]. apply mem_in in E. contradiction. }
    split; [|split].
    + intros _ i. rewrite !fold_put. rewrite !NM by (rewrite SN; tauto).
      unfold put. cbn [String.eqb Ascii.eqb Bool.eqb]. split; lra.
    + intros x Hx Q. rewrite fold_put. replace (mem x sn) with true; [reflexivity|].
      symmetry. apply mem_in. apply SN. split; [exact Hx|]. split; intros ->; apply Q; auto.
    + intros x Hx. rewrite fold_put. rewrite NM by (rewrite SN; tauto). unfold put.
      destruct (String.eqb_spec x "V_Velocity") as [E|_]; [exfalso; subst; apply Hx, B|].
      destruct (String.eqb_spec x "U_Velocity") as [E|_]; [exfalso; subst; apply Hx, B|]. reflexivity.
  - apply done_inj in H. subst d'. split; [|split].
    + intro B. apply RB in B. discriminate.
    + intros x Hx _. rewrite fold_put. apply mem_in in Hx. rewrite Hx. reflexivity.
    + intros x Hx. rewrite fold_put. destruct (mem x names) eqn:E; [|reflexivity]. apply mem_in in E. contradiction.
Qed.
Example ex_ncom : exists d',
  set_ncom ["Salinity"; "U_Velocity"; "V_Velocity"] (projection_rotator (fun _ => 0))
    (fun n _ => if String.eqb n "Salinity" then 30 else if String.eqb n "U_Velocity" then 1 else 2) (fun _ _ => 0) = Done d'
  /\ d' "Salinity" 5%nat = 30 /\ d' "V_Velocity" 5%nat = 2.
Proof.
  eexists. split; [reflexivity|]. split; [reflexivity|].
  cbn. rewrite cos_0, sin_0. lra.
Qed.

(* ------------------------------------------------------------------ *)
(** * Generic two-dimensional data *)

Lemma index_of_nth : forall x l, In x l -> exists i, index_of x l = Some i /\ (i < List.length l)%nat /\ nth i l "" = x.
Proof.
  intros x l. induction l as [|a l IH]; intro H; [destruct H|]. cbn [index_of].
  destruct (String.eqb_spec x a) as [->|D].
  - exists O. cbn. repeat split; lia.
  - destruct H as [E|H]; [congruence|]. destruct (IH H) as (i & E & L & Q). exists (S i). rewrite E. cbn. repeat split; [lia|exact Q].
Qed.
Lemma nth_map_val : forall (val : string -> scalar) l i, (i < List.length l)%nat ->
  nth i (map val l) (fun _ => 0) = val (nth i l "").
Proof.
  intros val l i H. transitivity (nth i (map val l) (val "")).
  - apply nth_indep. rewrite map_length. exact H.
  - apply map_nth.
Qed.

(** Each scalar field receives the variable of its own name, and the vector field the rotated
    pair of components. *)
Theorem C62_generic_fields : forall names e n theta val f,
  exists f', set_generic names (Some [e; n]) 2 (projection_rotator theta) val f = Done f' /\
    (forall k name, nth_error names k = Some name -> gf_scalars f' k = val name) /\
    (forall i, gf_vector f' i 0%nat = cos (theta i) * val e i - sin (theta i) * val n i /\
               gf_vector f' i 1%nat = sin (theta i) * val e i + cos (theta i) * val n i).
Proof.
  intros names e n theta val f.
  set (all := read_names names (Some [e; n])).
  assert (HE : In e all) by (unfold all, read_names; apply in_or_app; right; left; reflexivity).
  assert (HN : In n all) by (unfold all, read_names; apply in_or_app; right; right; left; reflexivity).
  destruct (index_of_nth e all HE) as (ie & E1 & E2 & E3).
  destruct (index_of_nth n all HN) as (jn & N1 & N2 & N3).
  unfold set_generic. cbv zeta. fold all. cbn [map]. rewrite E1, N1. cbn [Nat.eqb]. unfold projection_rotator.
  rewrite !nth_map_val by assumption. rewrite E3, N3.
  eexists. split; [reflexivity|]. cbn [gf_scalars gf_vector]. split.
  - intros k name Hk.
    assert (L : (k < List.length names)%nat) by (apply nth_error_Some; congruence).
    assert (L2 : (k < List.length all)%nat) by (unfold all, read_names; rewrite app_length; lia).
    destruct (Nat.ltb_spec k (List.length names)); [|lia].
    rewrite nth_map_val by exact L2. f_equal. unfold all, read_names. rewrite app_nth1 by exact L.
    apply nth_error_nth. exact Hk.
  - intro i. rewrite set_component_same. rewrite set_component_other by discriminate.
    rewrite set_component_same. split; lra.
Qed.
(** Without vector components only the scalar fields are written. *)
Theorem C62_generic_scalars : forall names dim rot val f,
  exists f', set_generic names None dim rot val f = Done f' /\ gf_vector f' = gf_vector f /\
    forall k name, nth_error names k = Some name -> gf_scalars f' k = val name.
Proof.
  intros names dim rot val f. unfold set_generic. cbv zeta. eexists. split; [reflexivity|]. split; [reflexivity|].
  intros k name Hk. cbn [gf_scalars].
  assert (L : (k < List.length names)%nat) by (apply nth_error_Some; congruence).
  destruct (Nat.ltb_spec k (List.length names)); [|lia].
  unfold read_names. rewrite app_nil_r. rewrite nth_map_val by exact L. f_equal. apply nth_error_nth. exact Hk.
Qed.

(* ------------------------------------------------------------------ *)
(** * Tides *)

(** the position of a node in the layout of the data base *)
Definition position (td : tidal) (node : nat) : R * R :=
  if td_lonlat_layout td then (snd (td_latlon td node), fst (td_latlon td node)) else td_latlon td node.
Lemma point_position : forall td node, point_of td node = position td node.
Proof. intros. unfold point_of, position. destruct (td_latlon td node). destruct (td_lonlat_layout td); reflexivity. Qed.

Definition or_zero (o : option R) : R := match o with Some x => x | None => 0 end.
Definition east_of (td : tidal) (data : tide_data) (t : R) (node : nat) : R := or_zero (get_u data t (position td node)).
(** the north component is only read where the east component is available *)
Definition north_of (td : tidal) (data : tide_data) (t : R) (node : nat) : R :=
  match get_u data t (position td node) with Some _ => or_zero (get_v data t (position td node)) | None => 0 end.

Lemma tide_loop_spec : forall td data t nodes s,
  let s' := fold_left (tide_node td data t) nodes s in
  (forall k, In k nodes -> tl_elev s' k = or_zero (get_elev data t (position td k))) /\
  (forall k, ~ In k nodes -> tl_elev s' k = tl_elev s k).
Proof.
  intros td data t nodes. induction nodes as [|a l IH]; intros s s'; [split; [intros k []|reflexivity]|].
  subst s'. cbn [fold_left]. destruct (IH (tide_node td data t s a)) as [I1 I2].
  assert (E : tl_elev (tide_node td data t s a) = set_node (tl_elev s) a (or_zero (get_elev data t (position td a)))).
  { unfold tide_node. rewrite point_position. destruct (td_velocity td); [|reflexivity].
    destruct (get_u data t (position td a)); [|reflexivity]. destruct (get_v data t (position td a)); reflexivity. }
  split.
  - intros k Hk. destruct (in_dec Nat.eq_dec k l) as [Hl|Hl]; [apply I1; exact Hl|].
    destruct Hk as [E2|Hk]; [|contradiction]. subst k. rewrite I2 by exact Hl. rewrite E. unfold set_node.
    rewrite Nat.eqb_refl. reflexivity.
  - intros k Hk. rewrite I2 by (intro; apply Hk; right; assumption). rewrite E. unfold set_node.
    destruct (Nat.eqb_spec k a) as [->|]; [exfalso; apply Hk; left; reflexivity|reflexivity].
Qed.
Lemma tide_loop_velocity : forall td data t nodes s, td_velocity td = true -> NoDup nodes ->
  (forall k, In k nodes -> tl_lon s k = 0 /\ tl_lat s k = 0) ->
  let s' := fold_left (tide_node td data t) nodes s in
  (forall k, In k nodes -> tl_lon s' k = east_of td data t k /\ tl_lat s' k = north_of td data t k) /\
  (forall k, ~ In k nodes -> tl_lon s' k = tl_lon s k /\ tl_lat s' k = tl_lat s k) /\
  (forall k c, (2 <= c)%nat -> tl_uv s' k c = tl_uv s k c).
Proof.
  intros td data t nodes s V N. revert s. induction N as [|a l H N IH]; intros s Z s'.
  { subst s'. cbn. split; [intros k []|split; intros; auto]. }
  subst s'. cbn [fold_left].
  set (s1 := tide_node td data t s a).
  assert (L1 : forall k, tl_lon s1 k = if Nat.eqb k a then east_of td data t a else tl_lon s k).
  { intro k. unfold s1, tide_node, east_of. rewrite point_position, V.
    destruct (Nat.eqb_spec k a) as [->|D]; destruct (get_u data t (position td a)); cbn [or_zero];
      try destruct (get_v data t (position td a)); cbn [tl_lon]; unfold set_node; rewrite ?Nat.eqb_refl; try reflexivity.
    all: try (apply Z; left; reflexivity). all: try (apply Nat.eqb_neq in D; rewrite D; reflexivity). }
  assert (L2 : forall k, tl_lat s1 k = if Nat.eqb k a then north_of td data t a else tl_lat s k).
  { intro k. unfold s1, tide_node, north_of. rewrite point_position, V.
    destruct (Nat.eqb_spec k a) as [->|D]; destruct (get_u data t (position td a)); cbn [or_zero];
      try destruct (get_v data t (position td a)); cbn [tl_lat or_zero]; unfold set_node; rewrite ?Nat.eqb_refl; try reflexivity.
    all: try (apply Z; left; reflexivity). all: try (apply Nat.eqb_neq in D; rewrite D; reflexivity). }
  assert (L3 : forall k c, (2 <= c)%nat -> tl_uv s1 k c = tl_uv s k c).
  { intros k c Hc. unfold s1, tide_node. rewrite point_position, V.
    assert (NC : Nat.ltb c 2 = false) by (apply Nat.ltb_ge; exact Hc).
    destruct (get_u data t (position td a)); [destruct (get_v data t (position td a))|]; cbn [tl_uv]; try reflexivity;
      rewrite NC, andb_false_r; reflexivity. }
  destruct (IH s1) as (I1 & I2 & I3).
  { intros k Hk. rewrite L1, L2. destruct (Nat.eqb_spec k a) as [->|]; [contradiction|]. apply Z. right. exact Hk. }
  split; [|split].
  - intros k [E|Hk]; [|apply I1; exact Hk]. subst k. destruct (I2 a H) as [J1 J2]. rewrite J1, J2, L1, L2, Nat.eqb_refl. auto.
  - intros k Hk. destruct (I2 k) as [J1 J2]; [intro; apply Hk; right; assumption|]. rewrite J1, J2, L1, L2.
    destruct (Nat.eqb_spec k a) as [->|]; [exfalso; apply Hk; left; reflexivity|auto].
  - intros k c Hc. rewrite I3 by exact Hc. apply L3. exact Hc.
Qed.

(** The elevation at the selected nodes is the value of the data base at the position of the
    node, zero where the data base has no value; other nodes keep their value. *)
Theorem C62_tidal_elevation : forall td data t f f',
  set_tidal td data t f = Done f' ->
  (forall k, In k (td_nodes td) -> tf_elev f' k = or_zero (get_elev data t (position td k))) /\
  (forall k, ~ In k (td_nodes td) -> tf_elev f' k = tf_elev f k).
Proof.
  intros td data t f f' H. unfold set_tidal in H.
  destruct (td_nodes td) as [|a l] eqn:EN.
  { apply done_inj in H. subst f'. split; [intros k []|reflexivity]. }
  set (s := fold_left (tide_node td data t) (a :: l) (mk_loop (tf_elev f) (tf_uv f) (fun _ => 0) (fun _ => 0))) in H.
  assert (E : tf_elev f' = tl_elev s).
  { destruct (td_velocity td); [destruct (td_rot td) as [|fu [|fv r]]; try discriminate H|]; apply done_inj in H; subst f'; reflexivity. }
  rewrite E. apply (tide_loop_spec td data t (a :: l)).
Qed.
(** ... after any number of evaluations the values are those of the last time. *)
Theorem C62_tidal_history : forall td data ts t f f',
  tidal_run td data (ts ++ [t]) f = Done f' ->
  (forall k, In k (td_nodes td) -> tf_elev f' k = or_zero (get_elev data t (position td k))) /\
  (forall k, ~ In k (td_nodes td) -> tf_elev f' k = tf_elev f k).
Proof.
  intros td data ts t f f' H. unfold tidal_run in H. rewrite fold_left_app in H. cbn [fold_left] in H.
  assert (K : forall ts r, (forall g, r = Done g -> forall k, ~ In k (td_nodes td) -> tf_elev g k = tf_elev f k) ->
            forall g, fold_left (fun r t => match r with Done f => set_tidal td data t f | e => e end) ts r = Done g ->
            forall k, ~ In k (td_nodes td) -> tf_elev g k = tf_elev f k).
  { clear. induction ts as [|t ts IH]; intros r Hr g Hg k Hk; cbn [fold_left] in Hg; [exact (Hr g Hg k Hk)|].
    refine (IH _ _ g Hg k Hk). intros g1 E k1 Hk1. destruct r as [g0| | |]; try discriminate E.
    rewrite (proj2 (C62_tidal_elevation _ _ _ _ _ E) k1 Hk1). exact (Hr g0 eq_refl k1 Hk1). }
  destruct (fold_left _ ts (Done f)) as [g| | |] eqn:EF; try discriminate H.
  destruct (C62_tidal_elevation _ _ _ _ _ H) as [A B]. split; [exact A|].
  intros k Hk. rewrite (B k Hk). refine (K ts (Done f) _ g EF k Hk). intros g0 E. apply done_inj in E. subst g0. reflexivity.
Qed.
(** The currents at the selected nodes, on a projected mesh: the rotated current of the data
    base. *)
Theorem C62_tidal_current : forall td data t theta f f',
  td_velocity td = true -> NoDup (td_nodes td) -> td_rot td = projection_rotator theta ->
  set_tidal td data t f = Done f' ->
  forall k u v, In k (td_nodes td) ->
    get_u data t (position td k) = Some u -> get_v data t (position td k) = Some v ->
    tf_uv f' k 0%nat = cos (theta k) * u - sin (theta k) * v /\
    tf_uv f' k 1%nat = sin (theta k) * u + cos (theta k) * v.
Proof.
  intros td data t theta f f' V N RT H k u v Hk HU HV. unfold set_tidal in H.
  destruct (td_nodes td) as [|a l] eqn:EN; [destruct Hk|].
  rewrite V, RT in H. cbn [projection_rotator] in H. unfold projection_rotator in H.
  set (s := fold_left (tide_node td data t) (a :: l) (mk_loop (tf_elev f) (tf_uv f) (fun _ => 0) (fun _ => 0))) in H.
  destruct (tide_loop_velocity td data t (a :: l) (mk_loop (tf_elev f) (tf_uv f) (fun _ => 0) (fun _ => 0)) V N
             ltac:(intros; split; reflexivity)) as (I1 & _ & _).
  fold s in I1. destruct (I1 k Hk) as [J1 J2]. unfold east_of in J1. unfold north_of in J2.
  rewrite HU in J1, J2. rewrite HV in J2. cbn [or_zero] in J1, J2.
  apply done_inj in H. subst f'. cbn [tf_uv]. rewrite set_component_same. rewrite set_component_other by discriminate.
  rewrite set_component_same. rewrite J1, J2. split; lra.
Qed.
(** Where neither component is available the current is zero. *)
Theorem C62_tidal_no_current : forall td data t theta f f',
  td_velocity td = true -> NoDup (td_nodes td) -> td_rot td = projection_rotator theta ->
  set_tidal td data t f = Done f' ->
  forall k, In k (td_nodes td) -> get_u data t (position td k) = None ->
    tf_uv f' k 0%nat = 0 /\ tf_uv f' k 1%nat = 0.
Proof.
  intros td data t theta f f' V N RT H k Hk HU. unfold set_tidal in H.
  destruct (td_nodes td) as [|a l] eqn:EN; [destruct Hk|].
  rewrite V, RT in H. unfold projection_rotator in H.
  set (s := fold_left (tide_node td data t) (a :: l) (mk_loop (tf_elev f) (tf_uv f) (fun _ => 0) (fun _ => 0))) in H.
  destruct (tide_loop_velocity td data t (a :: l) (mk_loop (tf_elev f) (tf_uv f) (fun _ => 0) (fun _ => 0)) V N
             ltac:(intros; split; reflexivity)) as (I1 & _ & _).
  fold s in I1. destruct (I1 k Hk) as [J1 J2]. unfold east_of in J1. unfold north_of in J2.
  rewrite HU in J1, J2. cbn [or_zero] in J1.
  apply done_inj in H. subst f'. cbn [tf_uv]. rewrite set_component_same. rewrite set_component_other by discriminate.
  rewrite set_component_same. rewrite J1, J2. split; lra.
Qed.
(** Without a velocity field, or with a data base that has no currents, the velocity is left
    alone. *)
Theorem C62_tidal_no_velocity_field : forall td data t f f',
  td_velocity td = computes_velocity false true \/ td_velocity td = computes_velocity true false ->
  set_tidal td data t f = Done f' -> tf_uv f' = tf_uv f.
Proof.
  intros td data t f f' V H. assert (V' : td_velocity td = false) by (destruct V as [V|V]; exact V).
  unfold set_tidal in H. rewrite V' in H.
  destruct (td_nodes td); apply done_inj in H; subst f'; reflexivity.
Qed.
(** Restricting the forcing to some boundaries restricts the elevation only: the velocity of
    every other node of the mesh is overwritten with zero. *)
Theorem C62_tidal_outside_refuted : forall td data t theta f f',
  td_velocity td = true -> NoDup (td_nodes td) -> td_nodes td <> [] -> td_rot td = projection_rotator theta ->
  set_tidal td data t f = Done f' ->
  forall k, ~ In k (td_nodes td) -> tf_uv f' k 0%nat = 0 /\ tf_uv f' k 1%nat = 0.
Proof.
  intros td data t theta f f' V N NE RT H k Hk. unfold set_tidal in H.
  destruct (td_nodes td) as [|a l] eqn:EN; [congruence|].
  rewrite V, RT in H. unfold projection_rotator in H.
  set (s := fold_left (tide_node td data t) (a :: l) (mk_loop (tf_elev f) (tf_uv f) (fun _ => 0) (fun _ => 0))) in H.
  destruct (tide_loop_velocity td data t (a :: l) (mk_loop (tf_elev f) (tf_uv f) (fun _ => 0) (fun _ => 0)) V N
             ltac:(intros; split; reflexivity)) as (_ & I2 & _).
  fold s in I2. destruct (I2 k Hk) as [J1 J2]. cbn [tl_lon tl_lat] in J1, J2.
  apply done_inj in H. subst f'. cbn [tf_uv]. rewrite set_component_same. rewrite set_component_other by discriminate.
  rewrite set_component_same. rewrite J1, J2. split; lra.
Qed.
(** Where only the north component is missing, the zero written by the error branch is replaced
    by the east component alone. *)
Theorem C62_tidal_half_current_refuted : exists td data t f f' k,
  In k (td_nodes td) /\ get_v data t (position td k) = None /\
  set_tidal td data t f = Done f' /\ tf_uv f' k 0%nat <> 0.
Proof.
  exists (mk_tidal [O] (fun _ => (50, 5)) true true (projection_rotator (fun _ => 0))).
  exists (mk_tide (fun _ _ => Some 1) (fun _ _ => Some 1) (fun _ _ => None)).
  exists 0, (mk_tf (fun _ => 0) (fun _ _ => 0)). eexists. exists O.
  split; [left; reflexivity|]. split; [reflexivity|]. split; [reflexivity|].
  cbn. rewrite cos_0, sin_0. lra.
Qed.
(** On a sphere the third component of the current is never written. *)
Theorem C62_tidal_sphere_refuted : forall td data t f f', NoDup (td_nodes td) ->
  td_velocity td = true -> set_tidal td data t f = Done f' ->
  forall k, tf_uv f' k 2%nat = tf_uv f k 2%nat.
Proof.
  intros td data t f f' N V H k. unfold set_tidal in H.
  destruct (td_nodes td) as [|a l] eqn:EN; [apply done_inj in H; subst; reflexivity|].
  rewrite V in H. destruct (td_rot td) as [|fu [|fv r]]; try discriminate H.
  set (s := fold_left (tide_node td data t) (a :: l) (mk_loop (tf_elev f) (tf_uv f) (fun _ => 0) (fun _ => 0))) in H.
  destruct (tide_loop_velocity td data t (a :: l) (mk_loop (tf_elev f) (tf_uv f) (fun _ => 0) (fun _ => 0)) V N
             ltac:(intros; split; reflexivity)) as (_ & _ & I3).
  apply done_inj in H. subst f'. cbn [tf_uv]. rewrite !set_component_other by discriminate.
  fold s in I3. rewrite I3 by lia. reflexivity.
Qed.
Example ex_tidal : exists f',
  set_tidal (mk_tidal [3%nat; 5%nat] (fun n => (INR n, 10)) true true (projection_rotator (fun _ => 0)))
    (mk_tide (fun t p => if Rlt_dec (snd p) 4 then Some (t + fst p) else None) (fun _ _ => Some 1) (fun _ _ => Some 2))
    7 (mk_tf (fun _ => 4) (fun _ _ => 4)) = Done f'
  /\ tf_elev f' 3%nat = 17 /\ tf_elev f' 5%nat = 0 /\ tf_elev f' 4%nat = 4 /\ tf_uv f' 4%nat 0%nat = 0.
Proof.
  eexists. split; [reflexivity|]. cbn.
  destruct (Rlt_dec (1 + 1 + 1) 4); [|lra]. destruct (Rlt_dec (1 + 1 + 1 + 1 + 1) 4); [lra|].
  repeat split; try reflexivity; try lra.
Qed.

Print Assumptions C62_roms_column.
Print Assumptions C62_ncom_fields.
Print Assumptions C62_generic_fields.
Print Assumptions C62_tidal_history.
Print Assumptions C62_tidal_current.
