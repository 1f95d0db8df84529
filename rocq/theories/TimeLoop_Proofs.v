From Verif Require Import Num TimeLoop_Model TimeLoop_Spec.

Lemma t_epsilon_pos : 0 < t_epsilon.
Proof. reflexivity. Qed.

Lemma clock_S t0 dt n : clock t0 dt (S n) = clock t0 dt n + dt.
Proof. unfold clock. rewrite qn_S. ring. Qed.
Lemma clock_0 t0 dt : clock t0 dt 0 = t0.
Proof. unfold clock. rewrite qn_0. ring. Qed.
Lemma clock_mono t0 dt m n : 0 < dt -> (m <= n)%nat -> clock t0 dt m <= clock t0 dt n.
Proof.
  intros Hdt Hmn. unfold clock.
  assert (qn m * dt <= qn n * dt).
  { apply Qcmult_le_compat_r; [now apply qn_le | now apply Qclt_le_weak]. }
  qc.
Qed.

(** Existence and uniqueness of the number of steps. *)
Lemma archimed x dt : 0 < dt -> exists n, x < qn n * dt.
Proof.
  intros Hdt. exists (Z.to_nat (qceil (x / dt) + 1)).
  destruct (qceil_spec (x / dt)) as [H1 H2].
  assert (Hq : x / dt < qn (Z.to_nat (qceil (x / dt) + 1))).
  { unfold qn. apply Qcle_lt_trans with (1 := H1). apply qz_lt. lia. }
  apply Qcmult_lt_compat_r with (z := dt) in Hq; [|assumption].
  rewrite qc_div_mul in Hq by now apply qc_pos_neq. exact Hq.
Qed.

Lemma least (P : nat -> Prop) (dec : forall n, {P n} + {~ P n}) n :
  P n -> exists m, P m /\ forall k, (k < m)%nat -> ~ P k.
Proof.
  induction n as [n IH] using lt_wf_ind. intros Hn.
  assert (H : (exists k, (k < n)%nat /\ P k) \/ forall k, (k < n)%nat -> ~ P k).
  { clear IH Hn. induction n as [|n IHn]; [right; lia|].
    destruct IHn as [[k [Hk Pk]]|IHn]; [left; exists k; split; [lia|assumption]|].
    destruct (dec n) as [Hp|Hp]; [left; exists n; split; [lia|assumption]|].
    right. intros k Hk. destruct (Nat.eq_dec k n) as [->|]; [assumption|apply IHn; lia]. }
  destruct H as [[k [Hk Pk]]|H]; [exact (IH k Hk Pk) | exists n; split; assumption].
Qed.

Lemma Qclt_sdec x y : {x < y} + {~ x < y}.
Proof. destruct (Qcltb_spec x y); [now left | now right]. Qed.
Lemma Qcle_sdec x y : {x <= y} + {~ x <= y}.
Proof. destruct (Qcleb_spec x y); [now left | now right]. Qed.

Lemma steps_needed_exists t0 dt E : 0 < dt -> exists N, steps_needed t0 dt E N.
Proof.
  intros Hdt. destruct (archimed (E - t_epsilon - t0) dt Hdt) as [n Hn].
  destruct (least (fun n => E - t_epsilon < clock t0 dt n)
              (fun n => Qclt_sdec _ _) n) as [m [Hm Hl]].
  { unfold clock. qc. }
  exists m. split; [|exact Hm]. intros k Hk. apply Hl in Hk. now apply Qcnot_lt_le.
Qed.

Lemma steps_needed_unique t0 dt E n m :
  steps_needed t0 dt E n -> steps_needed t0 dt E m -> n = m.
Proof.
  intros [H1 H2] [H3 H4].
  destruct (Nat.lt_trichotomy n m) as [H|[H|H]]; [|assumption|].
  - apply H3 in H. exfalso. now apply (Qclt_not_le _ _ H2).
  - apply H1 in H. exfalso. now apply (Qclt_not_le _ _ H4).
Qed.

Lemma steps_needed_bounds t0 dt E N : 0 < dt -> steps_needed t0 dt E N ->
  E - t_epsilon < clock t0 dt N /\ (N = 0%nat \/ clock t0 dt N <= E - t_epsilon + dt).
Proof.
  intros Hdt [H1 H2]. split; [assumption|]. destruct N as [|n]; [now left|right].
  rewrite clock_S. specialize (H1 n (Nat.lt_succ_diag_r n)). qc.
Qed.

Section L.
Context {St : Type} (adv : Qc -> St -> St).

Lemma advances_app (a b : list (event St)) : advances (a ++ b) = advances a ++ advances b.
Proof. unfold advances. apply flat_map_app. Qed.
Lemma yields_app (a b : list (event St)) : yields_of (a ++ b) = yields_of a ++ yields_of b.
Proof. unfold yields_of. apply flat_map_app. Qed.
Lemma tcb_app (a b : list (event St)) : timestep_callbacks (a ++ b) = timestep_callbacks a ++ timestep_callbacks b.
Proof. unfold timestep_callbacks. apply flat_map_app. Qed.
Lemma exports_app (a b : list (event St)) : exports (a ++ b) = exports a ++ exports b.
Proof. unfold exports. apply flat_map_app. Qed.

(** [n] passes through the loop body. *)
Fixpoint steps (n : nat) (y : bool) (o : options) (t0 : Qc) (l : lstate St) : lstate St * list (event St) :=
  match n with
  | O => (l, [])
  | S m => let '(l1, e1) := body adv y o t0 l in
           let '(l2, e2) := steps m y o t0 l1 in (l2, e1 ++ e2)
  end.

Lemma steps_snoc n y o t0 l :
  steps (S n) y o t0 l =
  (fst (body adv y o t0 (fst (steps n y o t0 l))),
   snd (steps n y o t0 l) ++ snd (body adv y o t0 (fst (steps n y o t0 l)))).
Proof.
  revert l. induction n as [|n IH]; intros l.
  - simpl. destruct (body adv y o t0 l) as [l1 e1]. simpl. now rewrite app_nil_r.
  - change (steps (S (S n)) y o t0 l) with
      (let '(l1, e1) := body adv y o t0 l in let '(l2, e2) := steps (S n) y o t0 l1 in (l2, e1 ++ e2)).
    destruct (body adv y o t0 l) as [l1 e1] eqn:E.
    rewrite IH.
    change (steps (S n) y o t0 l) with
      (let '(l1, e1) := body adv y o t0 l in let '(l2, e2) := steps n y o t0 l1 in (l2, e1 ++ e2)).
    rewrite E. destruct (steps n y o t0 l1) as [l2 e2]. simpl. now rewrite app_assoc.
Qed.

(** Fields of one body pass. *)
Lemma body_fields y o t0 l : let '(l', evs) := body adv y o t0 l in
  l_time l' = clock t0 (o_dt o) (S (l_internal l)) /\
  l_internal l' = S (l_internal l) /\
  l_iteration l' = (l_iteration l + 1)%Z /\
  l_state l' = adv (l_time l) (l_state l) /\
  advances evs = [l_time l] /\
  yields_of evs = (if y then [l_time l] else []) /\
  timestep_callbacks evs = [(l_time l', l_state l')] /\
  ((Qcleb (l_next l - t_epsilon) (l_time l') = true /\
    l_i_export l' = (l_i_export l + 1)%Z /\ l_next l' = l_next l + o_export_time o /\
    l_ix l' = map (Z.add 1) (l_ix l) /\
    exports evs = [mkExport (l_i_export l') (l_ix l) (l_time l') (l_iteration l') (l_state l')])
   \/
   (Qcleb (l_next l - t_epsilon) (l_time l') = false /\
    l_i_export l' = l_i_export l /\ l_next l' = l_next l /\ l_ix l' = l_ix l /\ exports evs = [])).
Proof.
  unfold body, clock, do_export. destruct (Qcleb _ _) eqn:E.
  - simpl. destruct y; simpl; repeat split; auto; left; repeat split; auto.
  - simpl. destruct y; simpl; repeat split; auto; right; repeat split; auto.
Qed.

Lemma body_shape y o t0 l : let '(l', evs) := body adv y o t0 l in
  exists pre, exports pre = [] /\ (forall r, export_between_steps true r -> export_between_steps true (pre ++ r)) /\
    (evs = pre \/ exists r, evs = pre ++ [Export r] /\
       r = mkExport (l_i_export l') (l_ix l) (l_time l') (l_iteration l') (l_state l')
       /\ l_i_export l' = (l_i_export l + 1)%Z /\ l_next l' = l_next l + o_export_time o
       /\ l_ix l' = map (Z.add 1) (l_ix l)).
Proof.
  unfold body, do_export. destruct (Qcleb _ _);
  exists (Advance (l_time l) :: (if y then [Yield (l_time l)] else []) ++
          [TimestepCallbacks (t0 + qn (S (l_internal l)) * o_dt o) (adv (l_time l) (l_state l))]).
  all: (split; [destruct y; reflexivity|]); (split; [destruct y; simpl; auto|]).
  2: left; reflexivity.
  right. eexists. split; [reflexivity|]. repeat split.
Qed.

(** The loop performs exactly the steps needed. *)
Lemma loop_steps fuel y o E t0 l N :
  (forall k, (k < N)%nat -> l_time (fst (steps k y o t0 l)) <= E - t_epsilon) ->
  E - t_epsilon < l_time (fst (steps N y o t0 l)) ->
  (N < fuel)%nat ->
  loop adv fuel y o E t0 l = Ok (steps N y o t0 l).
Proof.
  revert fuel l. induction N as [|N IH]; intros fuel l Hk HN Hf.
  - destruct fuel as [|fuel]; [lia|]. simpl in *.
    destruct (Qcleb_spec (l_time l) (E - t_epsilon)) as [H|H]; [|reflexivity].
    exfalso. now apply (Qclt_not_le _ _ HN).
  - destruct fuel as [|fuel]; [lia|]. simpl.
    destruct (Qcleb_spec (l_time l) (E - t_epsilon)) as [H|H].
    2:{ exfalso. apply H. apply (Hk 0%nat). lia. }
    destruct (body adv y o t0 l) as [l1 e1] eqn:Eb.
    rewrite IH with (l := l1).
    + destruct (steps N y o t0 l1) as [l2 e2]. reflexivity.
    + intros k Hk'. specialize (Hk (S k)). simpl in Hk. rewrite Eb in Hk.
      destruct (steps k y o t0 l1) as [l2 e2]. apply Hk. lia.
    + simpl in HN. rewrite Eb in HN. destruct (steps N y o t0 l1) as [l2 e2]. exact HN.
    + lia.
Qed.

(** Invariant of the non-export fields. *)
Lemma steps_fields n y o t0 l0 :
  l_time l0 = t0 -> l_internal l0 = 0%nat ->
  let '(l, evs) := steps n y o t0 l0 in
  l_time l = clock t0 (o_dt o) n /\ l_internal l = n /\
  l_iteration l = (l_iteration l0 + Z.of_nat n)%Z /\
  l_state l = state_after adv t0 (o_dt o) (l_state l0) n /\
  advances evs = map (clock t0 (o_dt o)) (seq 0 n) /\
  yields_of evs = (if y then map (clock t0 (o_dt o)) (seq 0 n) else []) /\
  timestep_callbacks evs =
    map (fun k => (clock t0 (o_dt o) k, state_after adv t0 (o_dt o) (l_state l0) k)) (seq 1 n).
Proof.
  intros Ht Hi. induction n as [|n IH].
  - simpl. rewrite clock_0, Z.add_0_r. destruct y; repeat split; auto.
  - rewrite steps_snoc. destruct (steps n y o t0 l0) as [l evs]. simpl fst in *; simpl snd in *.
    destruct IH as (H1 & H2 & H3 & H4 & H5 & H6 & H7).
    pose proof (body_fields y o t0 l) as Hb. destruct (body adv y o t0 l) as [l' e'].
    simpl fst; simpl snd. destruct Hb as (B1 & B2 & B3 & B4 & B5 & B6 & B7 & _).
    rewrite B1, B2, B3, B4, H2, H3. repeat split.
    + lia.
    + simpl. now rewrite H1, H4.
    + rewrite advances_app, H5, B5, seq_S, map_app, H1. reflexivity.
    + rewrite yields_app, H6, B6. destruct y; [|reflexivity]. rewrite seq_S, map_app, H1. reflexivity.
    + rewrite tcb_app, H7, B7, seq_S, map_app. simpl. now rewrite B1, B4, H1, H2, H4.
Qed.

(** Export fields: after n steps, [c] exports have been made at [stepl]. *)
Definition export_state (o : options) (t0 : Qc) (l0 : lstate St) (n : nat) (sl : list nat) : Prop :=
  forall y, let '(l, evs) := steps n y o t0 l0 in
  l_i_export l = (l_i_export l0 + Z.of_nat (length sl))%Z /\
  l_next l = l_next l0 + qn (length sl) * o_export_time o /\
  l_ix l = map (Z.add (Z.of_nat (length sl))) (l_ix l0) /\
  exports evs = map (fun p => expected_export adv t0 (o_dt o) (l_state l0) (l_iteration l0) (l_i_export l0)
                                (l_ix l0) (fst p) (snd p))
                    (combine (seq 0 (length sl)) sl).

Lemma combine_snoc {A B} (a : list A) (b : list B) x y : length a = length b ->
  combine (a ++ [x]) (b ++ [y]) = combine a b ++ [(x, y)].
Proof.
  revert b. induction a as [|u a IH]; intros [|v b] H; simpl in *; try discriminate; [reflexivity|].
  f_equal. apply IH. lia.
Qed.

Lemma export_state_step o t0 l0 n sl :
  l_time l0 = t0 -> l_internal l0 = 0%nat ->
  export_state o t0 l0 n sl ->
  export_state o t0 l0 (S n)
    (if Qcleb (l_next l0 + qn (length sl) * o_export_time o - t_epsilon) (clock t0 (o_dt o) (S n))
     then sl ++ [S n] else sl).
Proof.
  intros Ht Hi H y. specialize (H y). rewrite steps_snoc.
  pose proof (steps_fields n y o t0 l0 Ht Hi) as Hf.
  destruct (steps n y o t0 l0) as [l evs]. simpl fst in *; simpl snd in *.
  destruct H as (H1 & H2 & H3 & H4). destruct Hf as (F1 & F2 & F3 & F4 & _).
  pose proof (body_fields y o t0 l) as Hb. destruct (body adv y o t0 l) as [l' e'].
  simpl fst; simpl snd. destruct Hb as (B1 & B2 & B3 & B4 & _ & _ & _ & B).
  rewrite B1, H2, F2 in B.
  destruct B as [(E & X1 & X2 & X3 & X4)|(E & X1 & X2 & X3 & X4)]; rewrite E.
  - rewrite app_length. simpl length.
    rewrite Nat.add_1_r, seq_S, combine_snoc by now rewrite seq_length.
    rewrite map_app, exports_app, H4, X1, X2, X3, X4, H1, H3, map_map, qn_S.
    rewrite Nat2Z.inj_succ. repeat split.
    + lia.
    + ring.
    + apply map_ext. intros a. lia.
    + f_equal. simpl. unfold expected_export.
      rewrite ?X1, ?H1, ?H3, ?B1, ?B3, ?F3, ?B4, ?F1, ?F4, ?F2.
      f_equal. f_equal; try reflexivity; lia.
  - rewrite exports_app, X1, X2, X3, X4, app_nil_r. now repeat split.
Qed.

Lemma first_step_unique dt th a b :
  first_step_reaching dt th a -> first_step_reaching dt th b -> a = b.
Proof.
  intros [A1 A2] [B1 B2].
  destruct (Nat.lt_trichotomy a b) as [H|[H|H]]; [|assumption|].
  - apply B2 in H. exfalso. now apply (Qclt_not_le _ _ H).
  - apply A2 in H. exfalso. now apply (Qclt_not_le _ _ H).
Qed.

Lemma qn_dt_mono dt a b : 0 < dt -> (a <= b)%nat -> qn a * dt <= qn b * dt.
Proof. intros Hd H. apply Qcmult_le_compat_r; [now apply qn_le | now apply Qclt_le_weak]. Qed.

(** Thresholds of a schedule whose first export is due at t0 + X. *)
Definition due (X T : Qc) (k : nat) : Qc := X + qn k * T - t_epsilon.

Lemma due_mono X T j k : 0 < T -> (j <= k)%nat -> due X T j <= due X T k.
Proof. intros HT H. unfold due. pose proof (qn_dt_mono T j k HT H). qc. Qed.
Lemma due_S X T k : due X T (S k) = due X T k + T.
Proof. unfold due. rewrite qn_S. ring. Qed.

Lemma schedule o t0 l0 X n :
  l_time l0 = t0 -> l_internal l0 = 0%nat -> l_next l0 = t0 + X ->
  0 < o_dt o -> o_dt o <= o_export_time o -> t_epsilon < X ->
  exists sl, export_state o t0 l0 n sl /\
    qn n * o_dt o < due X (o_export_time o) (length sl) /\
    forall k m, nth_error sl k = Some m <->
      (m <= n)%nat /\ first_step_reaching (o_dt o) (due X (o_export_time o) k) m.
Proof.
  set (dt := o_dt o). set (T := o_export_time o).
  intros Ht Hi Hn Hdt HT HX.
  assert (HT0 : 0 < T) by qc.
  induction n as [|n IH].
  - exists []. split; [|split].
    + intros y. simpl. rewrite qn_0, Z.add_0_r. repeat split; [ring|].
      rewrite <- (map_id (l_ix l0)) at 1. apply map_ext. intros a. simpl. destruct a; reflexivity.
    + simpl. unfold due. rewrite qn_0. qc.
    + intros k m. split.
      * intros H. now destruct k.
      * intros [Hm [F1 _]]. assert (m = 0%nat) by lia. subst m.
        pose proof (due_mono X T 0 k HT0 (Nat.le_0_l k)) as D.
        unfold due in D at 1. rewrite qn_0 in *. exfalso.
        rewrite Qcmult_0_l in *. qc.
  - destruct IH as [sl [He [Hlt Hs]]].
    pose proof (export_state_step o t0 l0 n sl Ht Hi He) as He'.
    rewrite Hn in He'. fold dt T in He'.
    destruct (Qcleb_spec (t0 + X + qn (length sl) * T - t_epsilon) (clock t0 dt (S n))) as [G|G].
    + exists (sl ++ [S n]). split; [exact He'|].
      assert (G' : due X T (length sl) <= qn (S n) * dt) by (unfold due; unfold clock in G; qc).
      assert (Hlt' : qn (S n) * dt < due X T (S (length sl))).
      { rewrite due_S, qn_S. rewrite Qcmult_plus_distr_l. qc. }
      split.
      * rewrite app_length, Nat.add_1_r. exact Hlt'.
      * assert (FN : first_step_reaching dt (due X T (length sl)) (S n)).
        { split; [exact G'|]. intros m Hm. apply Qcle_lt_trans with (2 := Hlt).
          apply qn_dt_mono; [assumption|lia]. }
        intros k m. destruct (Nat.lt_trichotomy k (length sl)) as [Hk|[Hk|Hk]].
        -- rewrite nth_error_app1 by assumption. rewrite Hs. split; [intros [A B]; split; [lia|assumption]|].
           intros [A B]. split; [|assumption].
           destruct (nth_error sl k) as [m0|] eqn:E0.
           ++ apply Hs in E0. destruct E0 as [E1 E2]. now rewrite (first_step_unique _ _ _ _ B E2).
           ++ apply nth_error_None in E0. lia.
        -- subst k. rewrite nth_error_app2 by lia. rewrite Nat.sub_diag. simpl. split.
           ++ intros [= <-]. now split.
           ++ intros [_ B]. f_equal. now apply (first_step_unique _ _ _ _ FN B).
        -- split.
           ++ intros H. apply nth_error_Some_bound_index in H || (assert (nth_error (sl ++ [S n]) k <> None) as H' by congruence; apply nth_error_Some in H'; rewrite app_length in H'; simpl in H'; lia).
           ++ intros [A [B _]]. exfalso.
              pose proof (due_mono X T (S (length sl)) k HT0 Hk) as D.
              pose proof (qn_dt_mono dt m (S n) Hdt A) as M. qc.
    + exists sl. split; [exact He'|].
      assert (Hlt' : qn (S n) * dt < due X T (length sl)).
      { apply Qcnot_le_lt in G. unfold due, clock in *. qc. }
      split; [exact Hlt'|].
      intros k m. split.
      * intros H. apply Hs in H. destruct H; split; [lia|assumption].
      * intros [A B]. destruct (Nat.lt_ge_cases k (length sl)) as [Hk|Hk].
        -- destruct (nth_error sl k) as [m0|] eqn:E0.
           ++ pose proof E0 as E1. apply Hs in E1. destruct E1 as [_ E2].
              now rewrite (first_step_unique _ _ _ _ B E2).
           ++ apply nth_error_None in E0. lia.
        -- exfalso. destruct B as [B _].
           pose proof (due_mono X T (length sl) k HT0 Hk) as D.
           pose proof (qn_dt_mono dt m (S n) Hdt A) as M. qc.
Qed.

(** When the step is at least the export interval, every step exports. *)
Lemma schedule_coarse o t0 l0 n :
  l_time l0 = t0 -> l_internal l0 = 0%nat -> l_next l0 = t0 + o_export_time o ->
  0 < o_export_time o -> o_export_time o <= o_dt o ->
  export_state o t0 l0 n (seq 1 n).
Proof.
  intros Ht Hi Hn HT Hdt. induction n as [|n IH].
  - intros y. simpl. rewrite qn_0, Z.add_0_r. repeat split; [ring|].
    rewrite <- (map_id (l_ix l0)) at 1. apply map_ext. intros a. simpl. destruct a; reflexivity.
  - pose proof (export_state_step o t0 l0 n _ Ht Hi IH) as H.
    rewrite seq_length, Hn in H.
    destruct (Qcleb_spec (t0 + o_export_time o + qn n * o_export_time o - t_epsilon)
                (clock t0 (o_dt o) (S n))) as [G|G].
    + rewrite seq_S. exact H.
    + exfalso. apply G. unfold clock. rewrite qn_S.
      assert (qn n * o_export_time o <= qn n * o_dt o).
      { apply qc_mult_le; [apply qn_nonneg | assumption]. }
      pose proof t_epsilon_pos. rewrite Qcmult_plus_distr_l, Qcmult_1_l. qc.
Qed.

(** Initial export. *)
Definition l1_of (sv : solver St) (t0 next : Qc) : lstate St :=
  let l0 := start_l sv t0 next in if export_initial_state sv then fst (do_export l0) else l0.
Definition evs0_of (sv : solver St) (t0 next : Qc) : list (event St) :=
  let l0 := start_l sv t0 next in if export_initial_state sv then [snd (do_export l0)] else [].

Lemma run_from_steps fuel y o sv t0 next E N :
  resolve_end_time o t0 = Ok E ->
  steps_needed t0 (o_dt o) E N -> (N < fuel)%nat ->
  run_from adv fuel y o sv t0 next =
    Ok (finish sv (fst (steps N y o t0 (l1_of sv t0 next))),
        evs0_of sv t0 next ++ snd (steps N y o t0 (l1_of sv t0 next))).
Proof.
  intros HE [HN1 HN2] Hf. unfold run_from. rewrite HE.
  assert (Ht : l_time (l1_of sv t0 next) = t0) by (unfold l1_of; destruct (export_initial_state sv); reflexivity).
  assert (Hi : l_internal (l1_of sv t0 next) = 0%nat) by (unfold l1_of; destruct (export_initial_state sv); reflexivity).
  assert (HT : forall k, l_time (fst (steps k y o t0 (l1_of sv t0 next))) = clock t0 (o_dt o) k).
  { intros k. pose proof (steps_fields k y o t0 (l1_of sv t0 next) Ht Hi) as F.
    destruct (steps k y o t0 (l1_of sv t0 next)) as [l e]. apply F. }
  assert (HL : loop adv fuel y o E t0 (l1_of sv t0 next) = Ok (steps N y o t0 (l1_of sv t0 next))).
  { apply loop_steps; [intros k Hk; rewrite HT; now apply HN1 | rewrite HT; exact HN2 | exact Hf]. }
  unfold evs0_of. unfold l1_of in HL |- *. destruct (export_initial_state sv).
  - destruct (do_export (start_l sv t0 next)) as [l e] eqn:Ed. simpl fst in *. simpl snd in *.
    rewrite HL. destruct (steps N y o t0 l); reflexivity.
  - rewrite HL. destruct (steps N y o t0 _); reflexivity.
Qed.
End L.
