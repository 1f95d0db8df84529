(** C54: the cost function of an inversion. *)
From Coq Require Import Reals List Bool String Arith Lra Lia Permutation.
From Verif Require Import Inversion_Model.
Import ListNotations.
Open Scope R_scope.

(* ------------------------------------------------------------------ *)
(** * Specification *)

(** The observation window of station [j] contains time [t]. *)
Definition bound_at (b : option (list R)) (j : nat) : option R :=
  match b with None => None | Some [] => None | Some l => Some (nth j l 0) end.
Definition active (g : mgr) (t : R) (j : nat) : Prop :=
  (forall a, bound_at (g_start g) j = Some a -> a <= t) /\
  (forall b, bound_at (g_end g) j = Some b -> t <= b).

(** Squared distance of observed and modelled value. *)
Definition err2 (scalar : bool) (o m : val) : R :=
  if scalar then (fst o - fst m) ^ 2 else (fst o - fst m) ^ 2 + (snd o - snd m) ^ 2.

(** [v] is the linear interpolation of the samples at [t]. *)
Definition interpolates (xs ys : list R) (t v : R) : Prop :=
  exists k, (S k < List.length xs)%nat /\ nth k xs 0 <= t <= nth (S k) xs 0 /\
    v * (nth (S k) xs 0 - nth k xs 0)
    = nth k ys 0 * (nth (S k) xs 0 - t) + nth (S k) ys 0 * (t - nth k xs 0).

(** What the manager takes as the observed value of station [s] at time [t]. *)
Definition observed (g : mgr) (s : station) (t : R) (o : val) : Prop :=
  interp1d (fills g) (st_time s) (st_u s) t = IOk (fst o) /\
  (if g_scalar g then snd o = 0 else interp1d (fills g) (st_time s) (st_v s) t = IOk (snd o)).

(** Every station sits at its own place, and the processes together hold every
    station's point exactly once. *)
Definition placed (g : mgr) (procs : list (list point)) : Prop :=
  NoDup (map st_xy (g_stations g)) /\
  Permutation (List.concat procs) (map st_xy (g_stations g)).
(** Window lists have one entry per station when given. *)
Definition windows_ok (g : mgr) : Prop :=
  (forall l, given (g_start g) = Some l -> List.length l = List.length (g_stations g)) /\
  (forall l, given (g_end g) = Some l -> List.length l = List.length (g_stations g)).

(* ------------------------------------------------------------------ *)
(** * Lemmas *)
Lemma imap_ok : forall A B (f : A -> ires B) (h : A -> B) l,
  (forall a, In a l -> f a = IOk (h a)) -> imap f l = IOk (map h l).
Proof.
  induction l as [|a l IH]; intro H; [reflexivity|]. cbn [imap map].
  rewrite (H a (or_introl eq_refl)). cbn [ibind]. rewrite IH; [reflexivity|]. intros; apply H; right; assumption.
Qed.
Lemma imap_ext : forall A B (f h : A -> ires B) l,
  (forall a, In a l -> f a = h a) -> imap f l = imap h l.
Proof.
  induction l as [|a l IH]; intro H; [reflexivity|]. cbn [imap].
  rewrite (H a (or_introl eq_refl)). rewrite IH; [reflexivity|]. intros; apply H; right; assumption.
Qed.

Lemma osum_app : forall a b, osum (a ++ b) = oadd (osum a) (osum b).
Proof.
  unfold osum. induction a as [|x a IH]; intro b; cbn [app fold_right].
  - destruct (fold_right oadd (Some 0) b); cbn; [f_equal; lra|reflexivity].
  - rewrite IH. destruct x, (fold_right oadd (Some 0) a), (fold_right oadd (Some 0) b); cbn; try reflexivity.
    f_equal; lra.
Qed.
Lemma osum_concat : forall A (T : A -> option R) ls,
  osum (map osum (map (map T) ls)) = osum (map T (List.concat ls)).
Proof.
  induction ls as [|l ls IH]; [reflexivity|]. cbn [map List.concat]. rewrite map_app, osum_app.
  change (osum (osum (map T l) :: map osum (map (map T) ls))) with (oadd (osum (map T l)) (osum (map osum (map (map T) ls)))).
  rewrite IH. reflexivity.
Qed.
Lemma osum_perm : forall a b, Permutation a b -> osum a = osum b.
Proof.
  intros a b H. unfold osum. induction H; cbn [fold_right].
  - reflexivity.
  - rewrite IHPermutation. reflexivity.
  - destruct x, y, (fold_right oadd (Some 0) l); cbn; try reflexivity. f_equal; lra.
  - congruence.
Qed.
Lemma osum_some : forall l, osum (map Some l) = Some (rsum l).
Proof. induction l as [|x l IH]; [reflexivity|]. unfold osum in *. cbn [map fold_right]. rewrite IH. reflexivity. Qed.

Lemma pdist_zero : forall a b, pdist a b = 0 <-> a = b.
Proof.
  intros [a1 a2] [b1 b2]. unfold pdist; cbn [fst snd]. 
  pose proof (Rle_0_sqr (a1 - b1)) as P1. pose proof (Rle_0_sqr (a2 - b2)) as P2. unfold Rsqr in *.
  split; intro H.
  - apply sqrt_eq_0 in H; [|lra].
    assert (Z1 : (a1 - b1) * (a1 - b1) = 0) by lra. assert (Z2 : (a2 - b2) * (a2 - b2) = 0) by lra.
    apply Rmult_integral in Z1. apply Rmult_integral in Z2. f_equal; lra.
  - injection H as -> ->. replace ((b1 - b1) * (b1 - b1) + (b2 - b2) * (b2 - b2)) with 0 by ring. apply sqrt_0.
Qed.
Lemma pdist_nonneg : forall a b, 0 <= pdist a b.
Proof. intros. unfold pdist. apply sqrt_pos. Qed.

(** the nearest station to a station's own point is that station *)
Lemma nearest_self : forall l j0 j s, NoDup (map st_xy l) -> nth_error l j = Some s ->
  nearest_station l j0 (st_xy s) = Some ((j0 + j)%nat, 0).
Proof.
  assert (POS : forall l j0 p, ~ In p (map st_xy l) ->
    match nearest_station l j0 p with Some (_, d) => 0 < d | None => True end).
  { induction l as [|x l IH]; intros j0 p Hn; [exact I|]. cbn [nearest_station map In] in *.
    assert (Hx : 0 < pdist (st_xy x) p).
    { pose proof (pdist_nonneg (st_xy x) p). destruct (Req_dec (pdist (st_xy x) p) 0) as [E|E]; [|lra].
      apply pdist_zero in E. exfalso. apply Hn. left. exact E. }
    specialize (IH (S j0) p ltac:(tauto)). destruct (nearest_station l (S j0) p) as [[k d]|]; [|exact Hx].
    destruct (Rlt_dec d (pdist (st_xy x) p)); assumption. }
  induction l as [|x l IH]; intros j0 j s Hn Hj; [destruct j; discriminate|].
  cbn [map] in Hn. inversion Hn as [|? ? Hni Hn']; subst. cbn [nearest_station].
  destruct j as [|j].
  - cbn in Hj. assert (x = s) by congruence. subst x.
    assert (E : pdist (st_xy s) (st_xy s) = 0) by (apply pdist_zero; reflexivity).
    rewrite E. specialize (POS l (S j0) (st_xy s) Hni).
    destruct (nearest_station l (S j0) (st_xy s)) as [[k d]|].
    + destruct (Rlt_dec d 0); [lra|]. rewrite Nat.add_0_r. reflexivity.
    + rewrite Nat.add_0_r. reflexivity.
  - cbn [nth_error] in Hj. rewrite (IH (S j0) j s Hn' Hj).
    destruct (Rlt_dec 0 (pdist (st_xy x) (st_xy s))) as [L|L].
    + f_equal. f_equal. lia.
    + exfalso. apply L. pose proof (pdist_nonneg (st_xy x) (st_xy s)).
      destruct (Req_dec (pdist (st_xy x) (st_xy s)) 0) as [E|E]; [|lra]. apply pdist_zero in E.
      exfalso. apply Hni. rewrite E. apply in_map_iff. exists s. split; [reflexivity|]. apply nth_error_In with (n := j). exact Hj.
Qed.

Lemma close_refl : forall a, close a a = true.
Proof.
  intro a. unfold close. destruct (Rle_dec (Rabs (a - a)) (0.00000001 + 0.00001 * Rabs a)) as [H|H]; [reflexivity|].
  exfalso. apply H. replace (a - a) with 0 by ring. rewrite Rabs_R0. pose proof (Rabs_pos a). lra.
Qed.

Lemma window_ok : forall b j n, (forall l, given b = Some l -> List.length l = n) -> (j < n)%nat ->
  window b j = IOk (bound_at b j).
Proof.
  intros b j n H Hj. unfold window. destruct b as [[|x l]|]; [reflexivity| |reflexivity].
  cbn [given bound_at] in *. specialize (H (x :: l) eq_refl).
  rewrite (nth_error_nth' (x :: l) 0) by (rewrite H; exact Hj). reflexivity.
Qed.

Lemma local_of_station : forall g j s, NoDup (map st_xy (g_stations g)) -> windows_ok g ->
  nth_error (g_stations g) j = Some s ->
  make_local g (st_xy s) = IOk (mk_local j (st_xy s) (bound_at (g_start g) j) (bound_at (g_end g) j)).
Proof.
  intros g j s Hn (W1 & W2) Hj. unfold make_local. rewrite (nearest_self _ 0 j s Hn Hj). cbn [Nat.add]. rewrite Hj.
  rewrite !close_refl. cbn [andb].
  assert (Hlt : (j < List.length (g_stations g))%nat) by (apply nth_error_Some; congruence).
  rewrite (window_ok _ j _ W1 Hlt), (window_ok _ j _ W2 Hlt). reflexivity.
Qed.

Lemma in_window_active : forall g t j,
  in_window (bound_at (g_start g) j) (bound_at (g_end g) j) t = true <-> active g t j.
Proof.
  intros. unfold in_window, active. destruct (bound_at (g_start g) j) as [a|], (bound_at (g_end g) j) as [b|];
    rewrite andb_true_iff.
  - destruct (Rle_dec a t), (Rle_dec t b); split; intros H; try (destruct H; discriminate).
    + split; intros x E; injection E as <-; assumption.
    + split; reflexivity.
    + destruct H as (_ & H). specialize (H b eq_refl). contradiction.
    + destruct H as (H & _). specialize (H a eq_refl). contradiction.
    + destruct H as (H & _). specialize (H a eq_refl). contradiction.
  - destruct (Rle_dec a t); split; intros H; try (destruct H; discriminate).
    + split; intros x E; [injection E as <-; assumption|discriminate].
    + split; reflexivity.
    + destruct H as (H & _). specialize (H a eq_refl). contradiction.
  - destruct (Rle_dec t b); split; intros H; try (destruct H; discriminate).
    + split; intros x E; [discriminate|injection E as <-; assumption].
    + split; reflexivity.
    + destruct H as (_ & H). specialize (H b eq_refl). contradiction.
  - split; intros _; [split; intros; discriminate|split; reflexivity].
Qed.
Lemma active_dec : forall g t j, {active g t j} + {~ active g t j}.
Proof.
  intros. destruct (in_window (bound_at (g_start g) j) (bound_at (g_end g) j) t) eqn:E.
  - left. apply in_window_active. exact E.
  - right. intro H. apply in_window_active in H. congruence.
Qed.

Lemma misfit2_err2 : forall sc o m, misfit2 sc o m = err2 sc o m.
Proof.
  intros [|] [a b] [c d]; unfold misfit2, err2; cbn [fst snd]; [ring|].
  rewrite sqrt_sqrt; [ring|]. pose proof (Rle_0_sqr (a - c)). pose proof (Rle_0_sqr (b - d)). unfold Rsqr in *. lra.
Qed.

(* ------------------------------------------------------------------ *)
(** * The misfit at one time *)

(** One station's contribution: weighted squared error inside the window, nothing outside. *)
Definition contribution (g : mgr) (w : R) (o m : val) (t : R) (j : nat) : R :=
  if active_dec g t j then g_scaling g * w * err2 (g_scalar g) o m else 0.

(** The misfit is the sum of the stations' contributions, however the stations are
    distributed over processes and reordered by the vertex-only mesh. *)
Theorem C54_misfit : forall g procs w md t (o : nat -> val) (wj : nat -> R),
  placed g procs -> windows_ok g ->
  (forall j s, nth_error (g_stations g) j = Some s -> observed g s t (o j) /\ w j = Some (wj j)) ->
  exists ls, construct g procs = IOk ls /\
    eval_cost g ls w md t = IOk (Some (rsum (map (fun j =>
      contribution g (wj j) (o j) (md (nth j (map st_xy (g_stations g)) (0, 0))) t j)
      (seq 0 (List.length (g_stations g)))))).
Proof.
  intros g procs w md t o wj (Hn & Hp) HW Ho.
  assert (HP : forall p, In p (List.concat procs) -> exists j s, nth_error (g_stations g) j = Some s /\ p = st_xy s).
  { intros p H. apply (Permutation_in _ Hp), in_map_iff in H. destruct H as (s & <- & H).
    apply In_nth_error in H. destruct H as (j & H). exists j, s. split; [exact H|reflexivity]. }
  set (h := fun p => match make_local g p with IOk x => x | IErr _ => mk_local 0 p None None end).
  assert (Hloc : forall p, In p (List.concat procs) -> make_local g p = IOk (h p)).
  { intros p H. destruct (HP p H) as (j & s & Hj & ->). unfold h. rewrite (local_of_station g j s Hn HW Hj). reflexivity. }
  exists (map (map h) procs). split.
  { unfold construct. apply imap_ok. intros l Hl. apply imap_ok. intros p Hpl. apply Hloc.
    apply in_concat. exists l. split; assumption. }
  set (T := fun p => match observe g t (h p) with IOk v => term g w md t (h p) v | IErr _ => None end).
  assert (Hobs : forall j s, nth_error (g_stations g) j = Some s ->
     observe g t (h (st_xy s)) = IOk (fst (o j), if g_scalar g then 0 else snd (o j)) /\
     h (st_xy s) = mk_local j (st_xy s) (bound_at (g_start g) j) (bound_at (g_end g) j)).
  { intros j s Hj. assert (E : h (st_xy s) = mk_local j (st_xy s) (bound_at (g_start g) j) (bound_at (g_end g) j)).
    { unfold h. rewrite (local_of_station g j s Hn HW Hj). reflexivity. }
    split; [|exact E]. rewrite E. unfold observe. cbn [lo_j]. rewrite Hj.
    destruct (Ho j s Hj) as ((O1 & O2) & _). rewrite O1. cbn [ibind]. destruct (g_scalar g); [reflexivity|].
    rewrite O2. reflexivity. }
  unfold eval_cost.
  assert (E : imap (imap (fun x => ibind (observe g t x) (fun v => IOk (term g w md t x v)))) (map (map h) procs)
              = IOk (map (map T) procs)).
  { assert (GEN : forall ps, (forall p, In p (List.concat ps) -> In p (List.concat procs)) ->
      imap (imap (fun x => ibind (observe g t x) (fun v => IOk (term g w md t x v)))) (map (map h) ps) = IOk (map (map T) ps)).
    { induction ps as [|l ps IH]; intro Hs; [reflexivity|]. cbn [map imap].
      assert (El : imap (fun x => ibind (observe g t x) (fun v => IOk (term g w md t x v))) (map h l) = IOk (map T l)).
      { assert (Hl : forall p, In p l -> In p (List.concat procs)).
        { intros p H. apply Hs. cbn [List.concat]. apply in_or_app. left; exact H. }
        clear - Hl HP Hobs. induction l as [|p l IH]; [reflexivity|]. cbn [map imap].
        destruct (HP p (Hl p (or_introl eq_refl))) as (j & s & Hj & ->).
        destruct (Hobs j s Hj) as (O1 & _). unfold T at 1. rewrite O1. cbn [ibind].
        rewrite IH by (intros q Hq; apply Hl; right; exact Hq). reflexivity. }
      rewrite El. cbn [ibind]. rewrite IH; [reflexivity|]. intros p H. apply Hs. cbn [List.concat].
      apply in_or_app. right; exact H. }
    apply GEN. tauto. }
  rewrite E. cbn [ibind]. f_equal. rewrite osum_concat. rewrite (osum_perm _ (map T (map st_xy (g_stations g)))) by (apply Permutation_map, Hp).
  rewrite <- osum_some. f_equal. rewrite (map_map _ Some).
  (* pointwise *)
  apply nth_ext with (d := None) (d' := None).
  { rewrite !map_length, seq_length. reflexivity. }
  intros j Hj. rewrite !map_length in Hj.
  destruct (nth_error (g_stations g) j) as [s|] eqn:Ej; [|apply nth_error_None in Ej; lia].
  assert (Exy : nth j (map st_xy (g_stations g)) (0, 0) = st_xy s).
  { apply nth_error_nth. apply map_nth_error. exact Ej. }
  transitivity (T (st_xy s)).
  { apply nth_error_nth. apply map_nth_error. apply map_nth_error. exact Ej. }
  symmetry. rewrite (nth_indep _ None (Some (contribution g (wj 0%nat) (o 0%nat) (md (nth 0 (map st_xy (g_stations g)) (0, 0))) t 0%nat)))
    by (rewrite map_length, seq_length; exact Hj).
  rewrite (map_nth (fun x => Some (contribution g (wj x) (o x) (md (nth x (map st_xy (g_stations g)) (0, 0))) t x)) (seq 0 (List.length (g_stations g))) 0%nat j).
  rewrite seq_nth by exact Hj. cbn [Nat.add]. rewrite Exy.
  destruct (Hobs j s Ej) as (O1 & O2). unfold T. rewrite O1, O2. unfold term. cbn [lo_j lo_p lo_s lo_e].
  destruct (Ho j s Ej) as ((_ & O3) & W). rewrite W. f_equal. unfold contribution. rewrite misfit2_err2.
  assert (EE : err2 (g_scalar g) (fst (o j), if g_scalar g then 0 else snd (o j)) (md (st_xy s))
             = err2 (g_scalar g) (o j) (md (st_xy s))).
  { unfold err2. destruct (g_scalar g); reflexivity. }
  rewrite EE. destruct (active_dec g t j) as [A|A].
  - apply in_window_active in A. rewrite A. ring.
  - destruct (in_window _ _ t) eqn:Ew; [apply in_window_active in Ew; contradiction|]. ring.
Qed.

(** Where the data cover the time, the observed value is the linear interpolation. *)
Theorem C54_observed_value : forall fill xs ys t v,
  (forall i, (S i < List.length xs)%nat -> nth i xs 0 < nth (S i) xs 0) ->
  List.length ys = List.length xs ->
  nth 0 xs 0 <= t <= last xs 0 ->
  interp1d fill xs ys t = IOk v -> interpolates xs ys t v.
Proof.
  intros fill xs ys t v Hinc Hlen (H0 & H1) E. unfold interp1d in E.
  destruct xs as [|x0 xs]; [discriminate|]. cbn [nth] in H0.
  assert (EL : last (x0 :: xs) x0 = last (x0 :: xs) 0).
  { clear. revert x0. induction xs as [|x xs IH]; intro x0; [reflexivity|].
    change (last (x :: xs) x0 = last (x :: xs) 0). rewrite <- (IH x). clear. revert x.
    induction xs as [|y xs IH]; intro x; [reflexivity|]. change (last (y :: xs) x0 = last (y :: xs) x).
    generalize y. clear. induction xs as [|z xs IH]; intro y; [reflexivity|]. apply IH. }
  rewrite EL in E. destruct (Rlt_dec t x0); [lra|]. destruct (Rlt_dec (last (x0 :: xs) 0) t); [lra|].
  destruct (interp_in (x0 :: xs) ys t) as [w|] eqn:EI; [|discriminate].
  assert (w = v) by congruence. subst w. clear E EL H1 n n0.
  assert (G : forall xs ys, List.length ys = List.length xs ->
    (forall i, (S i < List.length xs)%nat -> nth i xs 0 < nth (S i) xs 0) -> nth 0 xs 0 <= t ->
    interp_in xs ys t = Some v -> interpolates xs ys t v).
  { clear. induction xs as [|a xs IH]; intros ys Hl Hi H0 E; [destruct ys; discriminate|].
    destruct ys as [|b ys]; [discriminate|]. destruct xs as [|a' xs]; [destruct ys; discriminate|].
    destruct ys as [|b' ys]; [discriminate|]. cbn [interp_in] in E.
    destruct (Rle_dec t a') as [L|L].
    - exists 0%nat. cbn [nth List.length] in *. pose proof (Hi 0%nat ltac:(cbn; lia)) as Hs. cbn [nth] in Hs.
      split; [lia|]. split; [lra|].
      assert (EV : v = b + (b' - b) / (a' - a) * (t - a)) by congruence. rewrite EV. field. lra.
    - destruct (IH (b' :: ys)) as (k & K1 & K2 & K3).
      + cbn in *. lia.
      + intros i Hi'. apply (Hi (S i)). cbn in *. lia.
      + cbn [nth]. lra.
      + exact E.
      + exists (S k). split; [cbn [List.length] in *; lia|]. split; [exact K2|exact K3]. }
  apply (G (x0 :: xs) ys Hlen Hinc); [cbn [nth]; lra|exact EI].
Qed.

(** The misfit is not negative. *)
Lemma err2_nonneg : forall sc o m, 0 <= err2 sc o m.
Proof.
  intros sc [a b] [c d]. unfold err2; cbn [fst snd]. pose proof (pow2_ge_0 (a - c)). pose proof (pow2_ge_0 (b - d)).
  destruct sc; lra.
Qed.
Lemma rsum_nonneg : forall A (f : A -> R) l, (forall a, In a l -> 0 <= f a) -> 0 <= rsum (map f l).
Proof.
  induction l as [|a l IH]; intro H; [unfold rsum; cbn; lra|]. unfold rsum in *. cbn [map fold_right].
  pose proof (H a (or_introl eq_refl)). specialize (IH ltac:(intros; apply H; right; assumption)). lra.
Qed.
Lemma rsum_zero_all : forall A (f : A -> R) l, (forall a, In a l -> 0 <= f a) -> rsum (map f l) = 0 ->
  forall a, In a l -> f a = 0.
Proof.
  induction l as [|x l IH]; intros H E a Ha; [contradiction|]. unfold rsum in *. cbn [map fold_right] in E.
  pose proof (H x (or_introl eq_refl)) as Hx.
  pose proof (rsum_nonneg A f l ltac:(intros; apply H; right; assumption)) as Hr. unfold rsum in Hr.
  destruct Ha as [<-|Ha]; [lra|]. apply IH; [intros; apply H; right; assumption|lra|exact Ha].
Qed.

Lemma contribution_nonneg : forall g w o m t j, 0 <= g_scaling g -> 0 <= w -> 0 <= contribution g w o m t j.
Proof.
  intros. unfold contribution. destruct (active_dec g t j); [|lra].
  apply Rmult_le_pos; [apply Rmult_le_pos; assumption|apply err2_nonneg].
Qed.

Theorem C54_misfit_nonnegative : forall g procs ls w md t c,
  placed g procs -> windows_ok g -> 0 <= g_scaling g ->
  (forall j, (j < List.length (g_stations g))%nat -> exists a, w j = Some a /\ 0 <= a) ->
  (forall j s, nth_error (g_stations g) j = Some s -> exists o, observed g s t o) ->
  construct g procs = IOk ls -> eval_cost g ls w md t = IOk c -> exists r, c = Some r /\ 0 <= r.
Proof.
  intros g procs ls w md t c Hp HW Hs Hw Ho Hc E.
  assert (CH : forall n, exists o : nat -> val, forall j s, (j < n)%nat -> nth_error (g_stations g) j = Some s -> observed g s t (o j)).
  { induction n as [|n (o & IH)]; [exists (fun _ => (0, 0)); intros; lia|].
    destruct (nth_error (g_stations g) n) as [s|] eqn:En.
    - destruct (Ho n s En) as (v & Hv). exists (fun j => if Nat.eqb j n then v else o j). intros j s' Hj Hjs.
      destruct (Nat.eqb_spec j n) as [->|Hne]; [congruence|]. apply IH; [lia|exact Hjs].
    - exists o. intros j s Hj Hjs. destruct (Nat.eq_dec j n) as [->|Hne]; [congruence|]. apply IH; [lia|exact Hjs]. }
  destruct (CH (List.length (g_stations g))) as (o & HO).
  assert (LT : forall j s, nth_error (g_stations g) j = Some s -> (j < List.length (g_stations g))%nat).
  { intros j s H. apply nth_error_Some. congruence. }
  destruct (C54_misfit g procs w md t o (fun j => match w j with Some a => a | None => 0 end) Hp HW) as (ls' & C1 & C2).
  { intros j s Hj. split; [apply HO; [exact (LT j s Hj)|exact Hj]|].
    destruct (Hw j (LT j s Hj)) as (a & -> & _). reflexivity. }
  assert (ls' = ls) by congruence. subst ls'. rewrite C2 in E.
  eexists. split; [injection E as <-; reflexivity|]. apply rsum_nonneg. intros j Hj. apply in_seq in Hj.
  apply contribution_nonneg; [exact Hs|]. destruct (Hw j ltac:(lia)) as (a & -> & Ha). exact Ha.
Qed.

(** With positive weights it is zero exactly when every active station matches. *)
Theorem C54_misfit_zero : forall g procs ls w md t (o : nat -> val) (wj : nat -> R),
  placed g procs -> windows_ok g -> 0 < g_scaling g ->
  (forall j s, nth_error (g_stations g) j = Some s -> observed g s t (o j) /\ w j = Some (wj j) /\ 0 < wj j) ->
  construct g procs = IOk ls ->
  (eval_cost g ls w md t = IOk (Some 0) <->
   forall j s, nth_error (g_stations g) j = Some s -> active g t j ->
     fst (o j) = fst (md (st_xy s)) /\ (g_scalar g = false -> snd (o j) = snd (md (st_xy s)))).
Proof.
  intros g procs ls w md t o wj Hp HW Hs Ho Hc.
  destruct (C54_misfit g procs w md t o wj Hp HW) as (ls' & C1 & C2).
  { intros j s Hj. destruct (Ho j s Hj) as (A & B & _). split; assumption. }
  assert (ls' = ls) by congruence. subst ls'. rewrite C2.
  assert (XY : forall j s, nth_error (g_stations g) j = Some s -> nth j (map st_xy (g_stations g)) (0, 0) = st_xy s).
  { intros j s Hj. apply nth_error_nth. apply map_nth_error. exact Hj. }
  assert (ST : forall j, In j (seq 0 (List.length (g_stations g))) -> exists s, nth_error (g_stations g) j = Some s).
  { intros j Hj. apply in_seq in Hj. destruct (nth_error (g_stations g) j) as [s|] eqn:E; [exists s; reflexivity|].
    apply nth_error_None in E. lia. }
  split.
  - intros E j s Hj Ha.
    assert (Z : contribution g (wj j) (o j) (md (nth j (map st_xy (g_stations g)) (0, 0))) t j = 0).
    { refine (rsum_zero_all nat (fun i => contribution g (wj i) (o i) (md (nth i (map st_xy (g_stations g)) (0, 0))) t i) _ _ _ j _).
      - intros i Hi. destruct (ST i Hi) as (s' & Hs'). destruct (Ho i s' Hs') as (_ & _ & Hw).
        apply contribution_nonneg; lra.
      - injection E as E. exact E.
      - apply in_seq. assert (j < List.length (g_stations g))%nat by (apply nth_error_Some; congruence). lia. }
    rewrite (XY j s Hj) in Z. unfold contribution in Z. destruct (active_dec g t j) as [_act|]; [|contradiction].
    destruct (Ho j s Hj) as (_ & _ & Hw).
    apply Rmult_integral in Z. destruct Z as [Z|Z].
    { apply Rmult_integral in Z. lra. }
    destruct (o j) as [a b], (md (st_xy s)) as [c d]. unfold err2 in Z. cbn [fst snd] in *.
    pose proof (pow2_ge_0 (a - c)). pose proof (pow2_ge_0 (b - d)).
    assert (SQ : forall x, x ^ 2 = 0 -> x = 0).
    { intros x Hx. replace (x ^ 2) with (x * x) in Hx by ring. apply Rmult_integral in Hx. lra. }
    destruct (g_scalar g).
    + split; [apply SQ in Z; lra|discriminate].
    + assert (a - c = 0) by (apply SQ; lra). assert (b - d = 0) by (apply SQ; lra). split; [lra|intros _; lra].
  - intros H. do 2 f_equal.
    transitivity (rsum (map (fun _ : nat => 0) (seq 0 (List.length (g_stations g))))).
    + f_equal. apply map_ext_in. intros j Hj. destruct (ST j Hj) as (s & Hjs). rewrite (XY j s Hjs).
      unfold contribution. destruct (active_dec g t j) as [A|A]; [|reflexivity].
      destruct (H j s Hjs A) as (H1 & H2). unfold err2. rewrite H1. destruct (g_scalar g).
      * ring.
      * rewrite (H2 eq_refl). ring.
    + generalize (seq 0 (List.length (g_stations g))). induction l as [|x l IH]; [reflexivity|].
      unfold rsum in *. cbn [map fold_right]. rewrite IH. ring.
Qed.

(** Stations outside their window do not matter. *)
Theorem C54_only_active_stations : forall g procs ls w w' md md' t (o : nat -> val) (wj wj' : nat -> R),
  placed g procs -> windows_ok g -> construct g procs = IOk ls ->
  (forall j s, nth_error (g_stations g) j = Some s -> observed g s t (o j) /\ w j = Some (wj j) /\ w' j = Some (wj' j)) ->
  (forall j s, nth_error (g_stations g) j = Some s -> active g t j -> wj j = wj' j /\ md (st_xy s) = md' (st_xy s)) ->
  eval_cost g ls w md t = eval_cost g ls w' md' t.
Proof.
  intros g procs ls w w' md md' t o wj wj' Hp HW Hc Ho Ha.
  destruct (C54_misfit g procs w md t o wj Hp HW) as (l1 & A1 & A2).
  { intros j s Hj. destruct (Ho j s Hj) as (A & B & _). split; assumption. }
  destruct (C54_misfit g procs w' md' t o wj' Hp HW) as (l2 & B1 & B2).
  { intros j s Hj. destruct (Ho j s Hj) as (A & _ & B). split; assumption. }
  assert (l1 = ls) by congruence. assert (l2 = ls) by congruence. subst l1 l2. rewrite A2, B2.
  do 3 f_equal. apply map_ext_in. intros j Hj. apply in_seq in Hj.
  destruct (nth_error (g_stations g) j) as [s|] eqn:E; [|apply nth_error_None in E; lia].
  assert (XY : nth j (map st_xy (g_stations g)) (0, 0) = st_xy s) by (apply nth_error_nth, map_nth_error, E).
  rewrite XY. unfold contribution. destruct (active_dec g t j) as [A|A]; [|reflexivity].
  destruct (Ha j s E A) as (-> & ->). reflexivity.
Qed.

(** The number of processes and the order of the points do not matter. *)
Theorem C54_distribution : forall g procs procs' ls ls' w md t (o : nat -> val) (wj : nat -> R),
  placed g procs -> placed g procs' -> windows_ok g ->
  (forall j s, nth_error (g_stations g) j = Some s -> observed g s t (o j) /\ w j = Some (wj j)) ->
  construct g procs = IOk ls -> construct g procs' = IOk ls' ->
  eval_cost g ls w md t = eval_cost g ls' w md t.
Proof.
  intros g procs procs' ls ls' w md t o wj H H' HW Ho C C'.
  destruct (C54_misfit g procs w md t o wj H HW Ho) as (l1 & A1 & A2).
  destruct (C54_misfit g procs' w md t o wj H' HW Ho) as (l2 & B1 & B2).
  assert (l1 = ls) by congruence. assert (l2 = ls') by congruence. subst l1 l2. congruence.
Qed.

(* ------------------------------------------------------------------ *)
(** * The total *)

(** Several observation types: the sum. *)
Theorem C54_multi : forall ms t (c : ready -> R),
  (forall m, In m ms -> eval_cost (r_g m) (r_ls m) (r_w m) (r_md m t) t = IOk (Some (c m))) ->
  eval_multi ms t = IOk (Some (rsum (map c ms))).
Proof.
  induction ms as [|m ms IH]; intros t c H; [reflexivity|]. cbn [eval_multi map].
  rewrite (H m (or_introl eq_refl)). cbn [ibind]. rewrite (IH t c) by (intros; apply H; right; assumption).
  reflexivity.
Qed.

(** Over the exports of a run: regularisation plus the sum of the misfits; J_misfit
    is the part without regularisation. *)
Theorem C54_cost_function : forall ms ts (c : R -> R) reg,
  (forall t, In t ts -> eval_multi ms t = IOk (Some (c t))) ->
  cost_run ms ts (Some reg, Some 0) = IOk (Some (reg + rsum (map c ts)), Some (rsum (map c ts))).
Proof.
  intros ms ts c reg H.
  assert (G : forall ts a b, (forall t, In t ts -> eval_multi ms t = IOk (Some (c t))) ->
    cost_run ms ts (Some a, Some b) = IOk (Some (a + rsum (map c ts)), Some (b + rsum (map c ts)))).
  { clear. induction ts as [|t ts IH]; intros a0 b0 H; cbn [cost_run map].
    - unfold rsum; cbn. do 2 f_equal; f_equal; lra.
    - rewrite (H t (or_introl eq_refl)). cbn [ibind fst snd oadd]. rewrite IH by (intros; apply H; right; assumption).
      unfold rsum; cbn [fold_right]. do 2 f_equal; f_equal; lra. }
  rewrite G by exact H. do 3 f_equal. lra.
Qed.

(* ------------------------------------------------------------------ *)
(** * Missing data *)

(** Without any window, a time outside the data of some station is an error. *)
Lemma imap_err : forall A B (f : A -> ires B) l a, In a l -> (exists e, f a = IErr e) -> exists e, imap f l = IErr e.
Proof.
  induction l as [|x l IH]; intros a H (e & E); [contradiction|]. cbn [imap].
  destruct H as [->|H].
  - rewrite E. exists e. reflexivity.
  - destruct (f x) as [b|e']; [|exists e'; reflexivity]. cbn [ibind].
    destruct (IH a H (ex_intro _ e E)) as (e' & ->). exists e'. reflexivity.
Qed.

Theorem C54_no_data_error : forall g procs ls w md t j s,
  placed g procs -> given (g_start g) = None -> given (g_end g) = None ->
  construct g procs = IOk ls -> nth_error (g_stations g) j = Some s ->
  (t < nth 0 (st_time s) 0 \/ last (st_time s) (nth 0 (st_time s) 0) < t) ->
  exists e, eval_cost g ls w md t = IErr e.
Proof.
  intros g procs ls w md t j s (Hn & Hp) Hs He Hc Hj Ht.
  assert (HW : windows_ok g) by (split; intros l H; congruence).
  assert (HL : local_of_station g j s Hn HW Hj = local_of_station g j s Hn HW Hj) by reflexivity. clear HL.
  pose proof (local_of_station g j s Hn HW Hj) as HL.
  assert (Hin : In (st_xy s) (List.concat procs)).
  { apply (Permutation_in _ (Permutation_sym Hp)). apply in_map. apply nth_error_In with j. exact Hj. }
  apply in_concat in Hin. destruct Hin as (l & Hl & Hsl).
  (* the local list of that process contains the station's entry *)
  assert (HX : exists lx, In lx ls /\ In (mk_local j (st_xy s) (bound_at (g_start g) j) (bound_at (g_end g) j)) lx).
  { assert (GI : forall A B (f : A -> ires B) l r a b, imap f l = IOk r -> In a l -> f a = IOk b -> In b r).
    { clear. induction l as [|x l IH]; intros r a b E H F; [contradiction|]. cbn [imap] in E.
      destruct (f x) as [y|] eqn:Ex; [|discriminate]. cbn [ibind] in E.
      destruct (imap f l) as [r'|] eqn:El; [|discriminate]. cbn [ibind] in E. injection E as <-.
      destruct H as [->|H]; [left; congruence|right; exact (IH r' a b eq_refl H F)]. }
    unfold construct in Hc.
    destruct (imap (make_local g) l) as [lx|e] eqn:Elx.
    - exists lx. split; [exact (GI _ _ _ _ _ l lx Hc Hl Elx)|exact (GI _ _ _ _ _ _ _ Elx Hsl HL)].
    - exfalso. destruct (imap_err _ _ (imap (make_local g)) procs l Hl (ex_intro _ e Elx)) as (e' & E'). congruence. }
  destruct HX as (lx & Hlx & Hx). unfold eval_cost.
  assert (HE : exists e, imap (fun x => ibind (observe g t x) (fun o => IOk (term g w md t x o))) lx = IErr e).
  { eapply imap_err; [exact Hx|]. unfold observe. cbn [lo_j]. rewrite Hj. unfold fills. rewrite Hs, He.
    exists ValueE. unfold interp1d. destruct (st_time s) as [|x0 xs]; [reflexivity|]. cbn [nth] in Ht.
    destruct (Rlt_dec t x0); [reflexivity|]. destruct (Rlt_dec (last (x0 :: xs) x0) t); [reflexivity|].
    destruct Ht; contradiction. }
  destruct HE as (e & HE).
  destruct (imap_err _ _ (imap (fun x => ibind (observe g t x) (fun o => IOk (term g w md t x o)))) ls lx Hlx (ex_intro _ e HE))
    as (e' & ->). exists e'. reflexivity.
Qed.

(** As soon as any window bound is given, for any station, missing data silently
    become observations of zero, also at stations whose window is open. *)
Definition tide (x : R) : station := mk_station "s" (x, 0) [0; 10] [3; 3] [].
Definition open_window : mgr :=
  mk_mgr true "elev" [tide 0; mk_station "late" (1, 0) [0; 100] [3; 3] []] (Some [0; 0]) None 1.
Theorem C54_no_data_refuted :
  active open_window 50 0 /\
  observed open_window (tide 0) 50 (0, 0) /\
  (forall o, observed (mk_mgr true "elev" [tide 0] None None 1) (tide 0) 50 o -> False).
Proof.
  split; [|split].
  - split; intros a E; [injection E as <-; cbn; lra|discriminate].
  - unfold observed, interp1d. cbn. split; [|reflexivity].
    destruct (Rlt_dec 50 0); [lra|]. destruct (Rlt_dec 10 50); [reflexivity|lra].
  - intros o (H & _). unfold interp1d in H. cbn in H.
    destruct (Rlt_dec 50 0); [lra|]. destruct (Rlt_dec 10 50); [discriminate|lra].
Qed.

(** Two stations at one place: both points take the first station's data. *)
Definition twins : mgr :=
  mk_mgr true "elev" [mk_station "a" (0, 0) [0; 1] [1; 1] []; mk_station "b" (0, 0) [0; 1] [5; 5] []] None None 1.
Lemma twin_local : make_local twins (0, 0) = IOk (mk_local 0 (0, 0) None None).
Proof.
  assert (Z : pdist (0, 0) (0, 0) = 0) by (apply pdist_zero; reflexivity).
  unfold make_local. cbn [twins g_stations nearest_station st_xy]. rewrite Z.
  destruct (Rlt_dec 0 0); [lra|]. cbn [nth_error st_xy fst snd]. rewrite close_refl. reflexivity.
Qed.
Theorem C54_same_place_refuted : exists ls,
  construct twins [[(0, 0); (0, 0)]] = IOk ls /\
  eval_cost twins ls (weights false twins) (fun _ => (1, 0)) 0 = IOk (Some 0).
Proof.
  exists [[mk_local 0 (0, 0) None None; mk_local 0 (0, 0) None None]]. split.
  - unfold construct. cbn [imap]. rewrite twin_local. reflexivity.
  - assert (E : observe twins 0 (mk_local 0 (0, 0) None None) = IOk (1, 0)).
    { unfold observe. cbn [lo_j twins g_stations nth_error fills given g_start g_end st_time st_u g_scalar]. unfold interp1d.
      destruct (Rlt_dec 0 0); [lra|]. cbn [last]. destruct (Rlt_dec 1 0); [lra|].
      cbn [interp_in]. destruct (Rle_dec 0 1); [|lra]. cbn [ibind]. do 3 f_equal. field. }
    unfold eval_cost. cbn [imap]. rewrite E. cbn [ibind map].
    unfold term. cbn [weights lo_j lo_s lo_e lo_p in_window andb twins g_scaling g_scalar]. unfold misfit2. cbn [fst snd].
    unfold osum. cbn [map fold_right oadd]. do 2 f_equal. lra.
Qed.

(* ------------------------------------------------------------------ *)
(** * Weighting by variance *)

(** Changing the unit of an observed quantity by a factor [k]. *)
Definition scale_station (k : R) (s : station) : station :=
  mk_station (st_name s) (st_xy s) (st_time s) (map (Rmult k) (st_u s)) (map (Rmult k) (st_v s)).
Definition scale_mgr (k : R) (g : mgr) : mgr :=
  mk_mgr (g_scalar g) (g_var g) (map (scale_station k) (g_stations g)) (g_start g) (g_end g) (g_scaling g).

Lemma rsum_scale : forall k l, rsum (map (Rmult k) l) = k * rsum l.
Proof. induction l as [|x l IH]; unfold rsum in *; cbn [map fold_right]; [ring|rewrite IH; ring]. Qed.
Lemma mean_scale : forall k l, mean (map (Rmult k) l) = k * mean l.
Proof. intros. unfold mean. rewrite map_length, rsum_scale. unfold Rdiv. ring. Qed.
Lemma var_scale : forall k l, var (map (Rmult k) l) = k * k * var l.
Proof.
  intros. unfold var. rewrite <- (mean_scale (k * k)). rewrite mean_scale, !map_map. f_equal. apply map_ext. intro x. ring.
Qed.
Lemma magnitudes_scale : forall k s, magnitudes (scale_station k s) = map (Rmult (Rabs k)) (magnitudes s).
Proof.
  intros k s. unfold magnitudes, scale_station; cbn [st_u st_v]. rewrite map_map. generalize (st_v s).
  induction (st_u s) as [|u us IH]; intros [|v vs]; cbn [map combine]; try reflexivity. rewrite IH. f_equal.
  cbn [fst snd]. replace (k * u * (k * u) + k * v * (k * v)) with (Rsqr k * (u * u + v * v)) by (unfold Rsqr; ring).
  rewrite sqrt_mult.
  - rewrite sqrt_Rsqr_abs. reflexivity.
  - apply Rle_0_sqr.
  - pose proof (Rle_0_sqr u). pose proof (Rle_0_sqr v). unfold Rsqr in *. lra.
Qed.
Lemma signal_var_scale : forall k g s, var (signal (scale_mgr k g) (scale_station k s)) = k * k * var (signal g s).
Proof.
  intros. unfold signal. cbn [scale_mgr g_scalar]. destruct (g_scalar g).
  - apply var_scale.
  - rewrite magnitudes_scale, var_scale. replace (Rabs k * Rabs k) with (k * k); [reflexivity|].
    rewrite <- Rabs_mult. symmetry. apply Rabs_pos_eq. apply Rle_0_sqr.
Qed.

Lemma interp_in_scale : forall k xs ys t, interp_in xs (map (Rmult k) ys) t = option_map (Rmult k) (interp_in xs ys t).
Proof.
  induction xs as [|a xs IH]; intros ys t; [reflexivity|].
  destruct xs as [|b xs]; [reflexivity|].
  destruct ys as [|y ys]; [reflexivity|]. destruct ys as [|z ys]; [reflexivity|].
  change (interp_in (a :: b :: xs) (map (Rmult k) (y :: z :: ys)) t)
    with (if Rle_dec t b then Some (k * y + (k * z - k * y) / (b - a) * (t - a)) else interp_in (b :: xs) (map (Rmult k) (z :: ys)) t).
  change (interp_in (a :: b :: xs) (y :: z :: ys) t)
    with (if Rle_dec t b then Some (y + (z - y) / (b - a) * (t - a)) else interp_in (b :: xs) (z :: ys) t).
  destruct (Rle_dec t b); [|apply IH]. cbn [option_map]. f_equal. unfold Rdiv. ring.
Qed.
Lemma interp1d_scale : forall k f xs ys t, interp1d f xs (map (Rmult k) ys) t
  = match interp1d f xs ys t with IOk v => IOk (k * v) | IErr e => IErr e end.
Proof.
  intros. unfold interp1d. destruct xs as [|x0 xs]; [reflexivity|].
  destruct (Rlt_dec t x0); [destruct f; [f_equal; ring|reflexivity]|].
  destruct (Rlt_dec (last (x0 :: xs) x0) t); [destruct f; [f_equal; ring|reflexivity]|].
  rewrite interp_in_scale. destruct (interp_in (x0 :: xs) ys t); reflexivity.
Qed.

(** The variance weighted misfit does not depend on the unit of the quantity. *)
Theorem C54_variance_weighting : forall k g ls md t, k <> 0 ->
  eval_cost (scale_mgr k g) ls (weights true (scale_mgr k g)) (fun p => (k * fst (md p), k * snd (md p))) t
  = eval_cost g ls (weights true g) md t.
Proof.
  intros k g ls md t Hk. unfold eval_cost. f_equal. apply imap_ext. intros l _. apply imap_ext. intros x _.
  unfold observe. cbn [scale_mgr g_stations g_scalar]. rewrite nth_error_map.
  destruct (nth_error (g_stations g) (lo_j x)) as [s|] eqn:Es; [|reflexivity]. cbn [option_map scale_station st_time st_u st_v].
  change (fills (scale_mgr k g)) with (fills g). rewrite !interp1d_scale.
  assert (TERM : forall u v, term (scale_mgr k g) (weights true (scale_mgr k g)) (fun p => (k * fst (md p), k * snd (md p))) t x (k * u, k * v)
    = term g (weights true g) md t x (u, v)).
  { intros u v. unfold term. cbn [weights]. unfold variance_weight. cbn [scale_mgr g_stations]. rewrite nth_error_map, Es. cbn [option_map].
    rewrite (signal_var_scale k g s).
    destruct (Req_EM_T (var (signal g s)) 0) as [E|E].
    - rewrite E. destruct (Req_EM_T (k * k * 0) 0) as [F|F]; [reflexivity|]. exfalso. apply F. ring.
    - destruct (Req_EM_T (k * k * var (signal g s)) 0) as [F|F].
      + exfalso. apply Rmult_integral in F. destruct F as [F|F]; [|contradiction]. apply Rmult_integral in F. lra.
      + f_equal. change (g_scaling (scale_mgr k g)) with (g_scaling g). change (g_scalar (scale_mgr k g)) with (g_scalar g). rewrite !misfit2_err2. unfold err2. cbn [fst snd].
        destruct (g_scalar g); field; auto. }
  destruct (interp1d (fills g) (st_time s) (st_u s) t) as [u|e]; [|reflexivity]. cbn [ibind].
  destruct (g_scalar g) eqn:Esc.
  - cbn [ibind]. f_equal. rewrite <- (TERM u 0). f_equal. f_equal. ring.
  - destruct (interp1d (fills g) (st_time s) (st_v s) t) as [v|e]; [|reflexivity]. cbn [ibind]. f_equal. apply TERM.
Qed.

(** A station with constant observations gets an infinite weight: the cost function
    is not a number, whatever the model does. *)
Theorem C54_variance_constant_refuted : forall md t, 0 <= t <= 1 ->
  let g := mk_mgr true "elev" [mk_station "a" (0, 0) [0; 1] [1; 1] []] None None 1 in
  exists ls, construct g [[(0, 0)]] = IOk ls /\ eval_cost g ls (weights true g) md t = IOk None.
Proof.
  intros md t Ht g. exists [[mk_local 0 (0, 0) None None]]. split.
  - pose proof (local_of_station g 0 (mk_station "a" (0, 0) [0; 1] [1; 1] [])) as L.
    unfold construct. cbn [imap]. cbn [st_xy] in L. rewrite L; [reflexivity| | |reflexivity].
    + cbn. constructor; [intros []|constructor].
    + split; intros l E; discriminate.
  - unfold eval_cost. cbn [imap]. unfold observe. cbn [lo_j g g_stations nth_error fills given g_start g_end st_time st_u g_scalar]. unfold interp1d.
    destruct (Rlt_dec t 0); [lra|]. cbn [last]. destruct (Rlt_dec 1 t); [lra|]. cbn [interp_in].
    destruct (Rle_dec t 1); [|lra]. cbn [ibind]. unfold term.
    assert (V : var [1; 1] = 0). { unfold var, mean, rsum. cbn. lra. }
    assert (W : weights true g 0%nat = None).
    { unfold weights, variance_weight, g, signal. cbn [g_stations nth_error g_scalar st_u]. rewrite V.
      destruct (Req_EM_T 0 0); [reflexivity|contradiction]. }
    cbn [lo_j]. rewrite W. reflexivity.
Qed.

(* ------------------------------------------------------------------ *)
(** * Regularisation *)
Theorem C54_regularisation_nonnegative : forall scaling area gamma k (q : list (R * (list R * R))),
  0 <= scaling -> 0 < area -> 0 <= gamma ->
  (forall x, In x q -> 0 <= fst x /\ 0 <= snd (snd x)) ->
  0 <= reg_eval scaling area (map (fun x => (fst x, smooth_expr gamma (fst (snd x)) (snd (snd x)) k)) q).
Proof.
  intros scaling area gamma k q Hs Ha Hg Hq. unfold reg_eval. rewrite map_map. apply rsum_nonneg.
  intros x Hx. cbn [fst snd]. destruct (Hq x Hx) as (H1 & H2). apply Rmult_le_pos; [exact H1|].
  unfold Rdiv. apply Rmult_le_pos; [|left; apply Rinv_0_lt_compat; exact Ha].
  apply Rmult_le_pos; [exact Hs|]. unfold smooth_expr. apply Rmult_le_pos; [apply Rmult_le_pos; [exact Hg|]|apply pow_le; exact H2].
  apply rsum_nonneg. intros c _. apply Rle_0_sqr.
Qed.

(** Flat controls (vanishing recovered derivative) are not penalised. *)
Theorem C54_regularisation_flat : forall scaling area gamma k (q : list (R * (list R * R))),
  (forall x c, In x q -> In c (fst (snd x)) -> c = 0) ->
  reg_eval scaling area (map (fun x => (fst x, smooth_expr gamma (fst (snd x)) (snd (snd x)) k)) q) = 0.
Proof.
  intros scaling area gamma k q H. unfold reg_eval. rewrite map_map.
  assert (Z : forall l : list R, (forall c, In c l -> c = 0) -> rsum (map (fun c => c * c) l) = 0).
  { clear. induction l as [|c l IH]; intro H; [reflexivity|]. unfold rsum in *. cbn [map fold_right].
    rewrite IH by (intros; apply H; right; assumption). rewrite (H c (or_introl eq_refl)). ring. }
  cbn [fst snd]. induction q as [|x q IH]; [reflexivity|]. unfold rsum in *. cbn [map fold_right].
  rewrite IH by (intros y c Hy; apply H; right; exact Hy).
  unfold smooth_expr. pose proof (Z (fst (snd x)) (fun c => H x c (or_introl eq_refl))) as E. unfold rsum. rewrite E.
  unfold Rdiv. ring.
Qed.

(** Real-valued controls: exactly scaling * gamma (f - f0)^2 / max(|f0|, eps). *)
Theorem C54_regularisation_real : forall scaling gamma f prior eps (ws : list R),
  rsum ws <> 0 ->
  reg_eval scaling (rsum ws) (map (fun w => (w, rspace_expr gamma f prior eps)) ws)
  = scaling * (gamma * (f - prior) ^ 2 / Rmax (Rabs prior) eps).
Proof.
  intros scaling gamma f prior eps ws Hw. unfold reg_eval. rewrite map_map. cbn [fst snd].
  set (e := rspace_expr gamma f prior eps).
  assert (E : rsum (map (fun w => w * (scaling * e / rsum ws)) ws) = rsum ws * (scaling * e / rsum ws)).
  { generalize (scaling * e / rsum ws). intro c. clear. induction ws as [|w ws IH]; unfold rsum in *; cbn [map fold_right]; [ring|].
    rewrite IH. ring. }
  rewrite E. assert (E2 : rsum ws * (scaling * e / rsum ws) = scaling * e) by (field; exact Hw). rewrite E2.
  unfold e, rspace_expr. f_equal. f_equal. ring.
Qed.
Theorem C54_regularisation_prior : forall gamma f prior eps, 0 < gamma -> 0 < eps ->
  0 <= rspace_expr gamma f prior eps /\ (rspace_expr gamma f prior eps = 0 <-> f = prior).
Proof.
  intros gamma f prior eps Hg He. unfold rspace_expr.
  assert (Hm : 0 < Rmax (Rabs prior) eps) by (pose proof (Rmax_r (Rabs prior) eps); lra).
  pose proof (Rle_0_sqr (f - prior)) as Hq. unfold Rsqr in Hq. split.
  - unfold Rdiv. apply Rmult_le_pos; [apply Rmult_le_pos; lra|left; apply Rinv_0_lt_compat; exact Hm].
  - split.
    + intro E. unfold Rdiv in E. apply Rmult_integral in E. destruct E as [E|E].
      * apply Rmult_integral in E. destruct E as [E|E]; [lra|]. apply Rmult_integral in E. lra.
      * pose proof (Rinv_0_lt_compat _ Hm). lra.
    + intros ->. unfold Rdiv. ring.
Qed.

(** One penalty parameter per control or none at all. *)
Theorem C54_penalties : forall C (calc : C -> R -> R) controls gammas,
  match setup_reg calc controls gammas with
  | IOk r => (gammas = [] /\ r = 0) \/
      (List.length gammas = List.length controls /\ r = rsum (map (fun x => calc (fst x) (snd x)) (combine controls gammas)))
  | IErr e => e = AssertE /\ gammas <> [] /\ List.length gammas <> List.length controls
  end.
Proof.
  intros. unfold setup_reg, reg_manager. destruct gammas as [|g gs]; [left; split; reflexivity|].
  destruct (Nat.eqb_spec (List.length controls) (List.length (g :: gs))) as [E|E].
  - right. split; [congruence|reflexivity].
  - split; [reflexivity|]. split; [discriminate|congruence].
Qed.

(* ------------------------------------------------------------------ *)
(** * A concrete case *)
Definition two : mgr :=
  mk_mgr false "uv" [mk_station "a" (0, 0) [0; 2] [0; 2] [1; 1]; mk_station "b" (1, 0) [0; 2] [0; 4] [0; 0]] (Some [0; 5]) None 2.
Example ex_placed : placed two [[(1, 0)]; []; [(0, 0)]].
Proof.
  split.
  - cbn. repeat constructor; cbn; intros H; decompose [or] H; try contradiction. injection H0. lra.
  - cbn. apply perm_swap.
Qed.
Example ex_windows : windows_ok two. Proof. split; intros l E; [injection E as <-; reflexivity|discriminate]. Qed.
Example ex_observed : observed two (mk_station "a" (0, 0) [0; 2] [0; 2] [1; 1]) 1 (1, 1)
  /\ observed two (mk_station "b" (1, 0) [0; 2] [0; 4] [0; 0]) 1 (2, 0).
Proof.
  unfold observed, interp1d. cbn [st_time st_u st_v two g_scalar fills given g_start g_end fst snd last interp_in].
  destruct (Rlt_dec 1 0); [lra|]. destruct (Rlt_dec 2 1); [lra|]. destruct (Rle_dec 1 2); [|lra].
  repeat split; f_equal; field.
Qed.
Example ex_misfit : exists ls, construct two [[(1, 0)]; []; [(0, 0)]] = IOk ls /\
  eval_cost two ls (weights false two) (fun _ => (0, 0)) 1 = IOk (Some 4).
Proof.
  destruct (C54_misfit two [[(1, 0)]; []; [(0, 0)]] (weights false two) (fun _ => (0, 0)) 1
    (fun j => match j with O => (1, 1) | _ => (2, 0) end) (fun _ => 1) ex_placed ex_windows) as (ls & H1 & H2).
  - destruct ex_observed as (O1 & O2). intros [|[|j]] s Hj; cbn in Hj.
    + assert (s = mk_station "a" (0, 0) [0; 2] [0; 2] [1; 1]) by congruence. subst s. split; [exact O1|reflexivity].
    + assert (s = mk_station "b" (1, 0) [0; 2] [0; 4] [0; 0]) by congruence. subst s. split; [exact O2|reflexivity].
    + destruct j; discriminate.
  - exists ls. split; [exact H1|]. rewrite H2. do 2 f_equal. cbn [two g_stations List.length seq map nth].
    unfold contribution, rsum. cbn [fold_right].
    assert (A0 : active two 1 0). { split; intros a E; [injection E as <-; cbn; lra|discriminate]. }
    assert (A1 : ~ active two 1 1). { intros (A & _). specialize (A 5 eq_refl). lra. }
    destruct (active_dec two 1 0); [|contradiction]. destruct (active_dec two 1 1); [contradiction|].
    unfold err2. cbn [two g_scalar g_scaling fst snd]. lra.
Qed.

Print Assumptions C54_misfit.
Print Assumptions C54_variance_weighting.
