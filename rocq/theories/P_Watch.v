(** C91: writing results, prolonging, splitting or dating a run does not change what it computes. *)
From Coq Require Import SpecFloat FunctionalExtensionality.
From Verif Require Import Num TimeLoop_Model TimeLoop_Spec TimeLoop_Proofs Watch_Model Watch_Spec.

Section Runs.
Variable S : Type.
Variable adv : Qc -> S -> S.
Local Notation lstate := (lstate S).

(* ------------------------------------------------------------------ *)
(** * Exports *)
Lemma clock_step : forall t0 dt n, t0 + qn (Datatypes.S n) * dt = t0 + qn n * dt + dt.
Proof. intros. rewrite qn_S. ring. Qed.

(** the same time and state, counted from possibly different starts *)
Definition same_l (t0 t0' dt : Qc) (l l' : lstate) : Prop :=
  l_time l = t0 + qn (l_internal l) * dt /\ l_time l' = t0' + qn (l_internal l') * dt /\
  l_time l' = l_time l /\ l_state l' = l_state l.

Lemma without_app : forall a b : list (event S), without_exports (a ++ b) = without_exports a ++ without_exports b.
Proof. intros. unfold without_exports. apply filter_app. Qed.

Lemma body_same : forall y o o' t0 t0' l l', o_dt o' = o_dt o -> same_l t0 t0' (o_dt o) l l' ->
  same_l t0 t0' (o_dt o) (fst (body adv y o t0 l)) (fst (body adv y o' t0' l')) /\
  without_exports (snd (body adv y o t0 l)) = without_exports (snd (body adv y o' t0' l')).
Proof.
  intros y o o' t0 t0' l l' Hd (H1 & H2 & H3 & H4). unfold body. rewrite Hd. cbv zeta.
  assert (T : t0' + qn (Datatypes.S (l_internal l')) * o_dt o = t0 + qn (Datatypes.S (l_internal l)) * o_dt o).
  { rewrite !clock_step, <- H1, <- H2, H3. reflexivity. }
  rewrite T, H3, H4.
  destruct (Qcleb (l_next l - _) _), (Qcleb (l_next l' - _) _); cbn [do_export fst snd];
    (split; [repeat split; cbn; rewrite ?T; reflexivity|rewrite ?without_app; cbn; rewrite ?app_nil_r; reflexivity]).
Qed.

Lemma loop_same : forall fuel y o o' E t0 t0' l l', o_dt o' = o_dt o -> same_l t0 t0' (o_dt o) l l' ->
  match loop adv fuel y o E t0 l, loop adv fuel y o' E t0' l' with
  | Ok (f, tr), Ok (f', tr') => same_l t0 t0' (o_dt o) f f' /\ without_exports tr = without_exports tr'
  | Err e, Err e' => e = e'
  | _, _ => False
  end.
Proof.
  induction fuel as [|fuel IH]; intros y o o' E t0 t0' l l' Hd Hl; [reflexivity|].
  cbn [loop]. pose proof Hl as (_ & _ & H1 & _). rewrite H1. destruct (Qcleb _ _); [|split; [exact Hl|reflexivity]].
  destruct (body_same y o o' t0 t0' l l' Hd Hl) as [B1 B2].
  destruct (body adv y o t0 l) as [m evs], (body adv y o' t0' l') as [m' evs']. cbn [fst snd] in B1, B2.
  specialize (IH y o o' E t0 t0' m m' Hd B1). destruct (loop adv fuel y o E t0 m) as [[f tr]|e], (loop adv fuel y o' E t0' m') as [[f' tr']|e'];
    try contradiction; [|exact IH].
  destruct IH as [I1 I2]. split; [exact I1|]. rewrite !without_app, B2, I2. reflexivity.
Qed.

Lemma run_same : forall fuel y o o' sv sv' t0 next next', same_computation o o' -> state sv' = state sv ->
  match run_from adv fuel y o sv t0 next, run_from adv fuel y o' sv' t0 next' with
  | Ok (f, tr), Ok (f', tr') => simulation_time f' = simulation_time f /\ state f' = state f /\ without_exports tr' = without_exports tr
  | Err e, Err e' => e = e'
  | _, _ => False
  end.
Proof.
  intros fuel y o o' sv sv' t0 next next' (Hd & He & Hi & Hn) Hs. unfold run_from.
  replace (resolve_end_time o' t0) with (resolve_end_time o t0) by (unfold resolve_end_time; rewrite He, Hi, Hn; reflexivity).
  destruct (resolve_end_time o t0) as [E|e]; [|reflexivity]. cbv zeta.
  set (p := if export_initial_state sv then _ else _). set (p' := if export_initial_state sv' then _ else _).
  assert (Z0 : t0 = t0 + qn 0 * o_dt o) by (rewrite qn_0; ring).
  assert (P : same_l t0 t0 (o_dt o) (fst p) (fst p') /\ without_exports (snd p) = [] /\ without_exports (snd p') = []).
  { unfold p, p'. destruct (export_initial_state sv), (export_initial_state sv'); cbn [do_export fst snd]; (split; [|split; reflexivity]);
      (split; [exact Z0|split; [exact Z0|split; [reflexivity|exact Hs]]]). }
  destruct p as [l1 e1], p' as [l1' e1']. cbn [fst snd] in P. destruct P as (P1 & P2 & P3).
  pose proof (loop_same fuel y o o' E t0 t0 l1 l1' Hd P1) as L.
  destruct (loop adv fuel y o E t0 l1) as [[f tr]|e], (loop adv fuel y o' E t0 l1') as [[f' tr']|e']; try contradiction; [|exact L].
  destruct L as ((_ & _ & L1 & L3) & L4). cbn [finish simulation_time state]. rewrite L1, L3.
  split; [reflexivity|]. split; [reflexivity|]. rewrite !without_app, P2, P3, L4. reflexivity.
Qed.

(** How often and how many results are written, whether the initial state is, and the
    counters of the exports do not change a run of the 2D solver: it makes the same steps,
    hands the same times and states to the user and ends in the same state, or stops with
    the same error. *)
Theorem C91_watching_2d : forall fuel o o' sv sv',
  same_computation o o' -> state sv' = state sv -> simulation_time sv' = simulation_time sv ->
  match iterate_2d adv fuel o sv, iterate_2d adv fuel o' sv' with
  | Ok (f, tr), Ok (f', tr') => simulation_time f' = simulation_time f /\ state f' = state f /\ without_exports tr' = without_exports tr
  | Err e, Err e' => e = e'
  | _, _ => False
  end.
Proof.
  intros fuel o o' sv sv' Ho Hs Ht. unfold iterate_2d. rewrite Ht. destruct (simulation_time sv); [|reflexivity].
  apply run_same; assumption.
Qed.
(** The 3D solver, for the same time step. *)
Theorem C91_watching_3d : forall fuel o o' sv sv',
  same_computation o o' -> state sv' = state sv -> simulation_time sv' = simulation_time sv ->
  match iterate_3d adv fuel o sv, iterate_3d adv fuel o' sv' with
  | Ok (f, tr), Ok (f', tr') => simulation_time f' = simulation_time f /\ state f' = state f /\ without_exports tr' = without_exports tr
  | Err e, Err e' => e = e'
  | _, _ => False
  end.
Proof.
  intros fuel o o' sv sv' Ho Hs Ht. unfold iterate_3d. rewrite Ht. destruct (simulation_time sv); [|reflexivity].
  apply run_same; assumption.
Qed.

(* ------------------------------------------------------------------ *)
(** * Longer runs *)
Lemma loop_fuel : forall fuel y o E t0 l r, loop adv fuel y o E t0 l = Ok r -> forall k, loop adv (fuel + k) y o E t0 l = Ok r.
Proof.
  induction fuel as [|fuel IH]; intros y o E t0 l r H k; [discriminate|]. cbn [loop Nat.add] in H |- *.
  destruct (Qcleb _ _); [|exact H]. destruct (body adv y o t0 l) as [m evs].
  destruct (loop adv fuel y o E t0 m) as [[f tr]|e] eqn:El; [|discriminate]. rewrite (IH _ _ _ _ _ _ El). exact H.
Qed.
Lemma loop_until : forall fuel y o e E t0 l, loop adv fuel y (until e o) E t0 l = loop adv fuel y o E t0 l.
Proof.
  induction fuel as [|f IH]; intros; [reflexivity|]. cbn [loop]. destruct (Qcleb _ _); [|reflexivity].
  change (body adv y (until e o) t0 l) with (body adv y o t0 l). destruct (body adv y o t0 l) as [m evs]. rewrite IH. reflexivity.
Qed.

(** the loop to the later end is the loop to the earlier end and the rest *)
Lemma loop_split : forall fuel1 y o E1 E2 t0 l l1 tr1, E1 <= E2 -> loop adv fuel1 y o E1 t0 l = Ok (l1, tr1) ->
  forall fuel2 l2 tr2, loop adv fuel2 y o E2 t0 l1 = Ok (l2, tr2) ->
  loop adv (fuel1 + fuel2) y o E2 t0 l = Ok (l2, tr1 ++ tr2).
Proof.
  induction fuel1 as [|f IH]; intros y o E1 E2 t0 l l1 tr1 HE H fuel2 l2 tr2 H2; [discriminate|].
  cbn [loop] in H. destruct (Qcleb_spec (l_time l) (E1 - t_epsilon)) as [Hle|Hgt].
  - cbn [loop Nat.add]. destruct (Qcleb_spec (l_time l) (E2 - t_epsilon)) as [_|Hn].
    2:{ exfalso. apply Hn. apply (Qcle_trans _ _ _ Hle). apply Qcplus_le_compat; [exact HE|apply Qcle_refl]. }
    destruct (body adv y o t0 l) as [m evs]. destruct (loop adv f y o E1 t0 m) as [[m1 tr]|e] eqn:El; [|discriminate].
    injection H as <- <-. rewrite (IH _ _ _ _ _ _ _ _ HE El _ _ _ H2). rewrite app_assoc. reflexivity.
  - injection H as <- <-. rewrite Nat.add_comm. cbn [app]. apply loop_fuel. exact H2.
Qed.

Definition on_clock (t0 dt : Qc) (l : lstate) : Prop := l_time l = t0 + qn (l_internal l) * dt.
Lemma body_clock : forall y o t0 l, on_clock t0 (o_dt o) l ->
  on_clock t0 (o_dt o) (fst (body adv y o t0 l)) /\ l_time (fst (body adv y o t0 l)) = l_time l + o_dt o.
Proof.
  intros y o t0 l H. unfold on_clock, body in *. cbv zeta.
  destruct (Qcleb (l_next l - t_epsilon) _); cbn [do_export fst l_time l_internal]; (split; [reflexivity|]); rewrite clock_step, <- H; reflexivity.
Qed.
Lemma loop_clock : forall fuel y o E t0 l f tr, on_clock t0 (o_dt o) l -> loop adv fuel y o E t0 l = Ok (f, tr) -> on_clock t0 (o_dt o) f.
Proof.
  induction fuel as [|fuel IH]; intros y o E t0 l f tr H HL; [discriminate|]. cbn [loop] in HL. destruct (Qcleb _ _); [|injection HL as <- <-; exact H].
  pose proof (proj1 (body_clock y o t0 l H)) as B. destruct (body adv y o t0 l) as [m evs]. cbn [fst] in B.
  destruct (loop adv fuel y o E t0 m) as [[f' tr']|e] eqn:El; [|discriminate]. injection HL as <- <-. exact (IH _ _ _ _ _ _ _ B El).
Qed.

Lemma loop_halts : forall y o E t0 l, 0 < o_dt o -> on_clock t0 (o_dt o) l ->
  exists fuel f tr, loop adv fuel y o E t0 l = Ok (f, tr).
Proof.
  intros y o E t0 l Hdt Hl.
  destruct (steps_needed_exists (l_time l) (o_dt o) E Hdt) as [N HN].
  revert l Hl HN. induction N as [|N IH]; intros l Hl HN.
  - exists 1%nat. cbn [loop]. destruct HN as [_ HN]. destruct (Qcleb_spec (l_time l) (E - t_epsilon)) as [H|H]; [|do 2 eexists; reflexivity].
    exfalso. apply (Qclt_not_le _ _ HN). replace (clock (l_time l) (o_dt o) 0) with (l_time l); [exact H|]. unfold clock. rewrite qn_0. ring.
  - destruct (body_clock y o t0 l Hl) as [B1 B2].
    assert (C : forall k, clock (l_time l) (o_dt o) (Datatypes.S k) = clock (l_time (fst (body adv y o t0 l))) (o_dt o) k)
      by (intro k; unfold clock; rewrite B2, qn_S; ring).
    destruct (IH (fst (body adv y o t0 l)) B1) as (fuel & f & tr & H).
    + destruct HN as [A B]. split; [intros k Hk; rewrite <- C; apply A; lia|rewrite <- C; exact B].
    + exists (Datatypes.S fuel). cbn [loop]. destruct (Qcleb _ _); [|do 2 eexists; reflexivity].
      destruct (body adv y o t0 l) as [m evs]. cbn [fst] in H. rewrite H. do 2 eexists. reflexivity.
Qed.

Lemma run_longer : forall fuel y o sv t0 next E1 E2 f1 tr1, 0 < o_dt o -> E1 <= E2 ->
  run_from adv fuel y (until E1 o) sv t0 next = Ok (f1, tr1) ->
  exists fuel' f2 rest, run_from adv fuel' y (until E2 o) sv t0 next = Ok (f2, tr1 ++ rest).
Proof.
  intros fuel y o sv t0 next E1 E2 f1 tr1 Hdt HE H. unfold run_from in *.
  change (resolve_end_time (until E1 o) t0) with (@Ok Qc E1) in H. change (resolve_end_time (until E2 o) t0) with (@Ok Qc E2).
  cbv zeta in *. set (p := if export_initial_state sv then _ else _) in *.
  assert (Pc : on_clock t0 (o_dt o) (fst p)).
  { unfold p, on_clock. destruct (export_initial_state sv); cbn [do_export fst start_l l_time l_internal]; rewrite qn_0; ring. }
  destruct p as [l0 e0]. cbn [fst] in Pc. rewrite loop_until in H.
  destruct (loop adv fuel y o E1 t0 l0) as [[l1 tr]|e] eqn:El; [|discriminate]. injection H as <- <-.
  destruct (loop_halts y o E2 t0 l1 Hdt (loop_clock _ _ _ _ _ _ _ _ Pc El)) as (fuel2 & l2 & tr2 & H2).
  exists (fuel + fuel2)%nat. rewrite loop_until, (loop_split _ _ _ _ _ _ _ _ _ HE El _ _ _ H2).
  eexists. exists tr2. rewrite app_assoc. reflexivity.
Qed.

(** A later end time only adds to a run: everything computed and written before stays as it is. *)
Theorem C91_longer_run_2d : forall fuel o sv E1 E2 f1 tr1, 0 < o_dt o -> E1 <= E2 ->
  iterate_2d adv fuel (until E1 o) sv = Ok (f1, tr1) ->
  exists fuel' f2 rest, iterate_2d adv fuel' (until E2 o) sv = Ok (f2, tr1 ++ rest).
Proof.
  intros fuel o sv E1 E2 f1 tr1 Hdt HE H. unfold iterate_2d in *. destruct (simulation_time sv) as [t0|]; [|discriminate].
  exact (run_longer _ _ _ _ _ _ _ _ _ _ Hdt HE H).
Qed.
Theorem C91_longer_run_3d : forall fuel o sv E1 E2 f1 tr1, 0 < o_dt o -> E1 <= E2 ->
  iterate_3d adv fuel (until E1 o) sv = Ok (f1, tr1) ->
  exists fuel' f2 rest, iterate_3d adv fuel' (until E2 o) sv = Ok (f2, tr1 ++ rest).
Proof.
  intros fuel o sv E1 E2 f1 tr1 Hdt HE H. unfold iterate_3d in *. destruct (simulation_time sv) as [t0|]; [|discriminate].
  exact (run_longer _ _ _ _ _ _ _ _ _ _ Hdt HE H).
Qed.

(* ------------------------------------------------------------------ *)
(** * Runs in parts *)
Lemma run_again : forall fuel1 fuel2 y o sv t0 next next2 E1 E2 f1 tr1 t1 f2 tr2, 0 < o_dt o -> E1 <= E2 ->
  run_from adv fuel1 y (until E1 o) sv t0 next = Ok (f1, tr1) -> simulation_time f1 = Some t1 ->
  run_from adv fuel2 y (until E2 o) f1 t1 next2 = Ok (f2, tr2) ->
  exists fuel f tr, run_from adv fuel y (until E2 o) sv t0 next = Ok (f, tr) /\
    state f = state f2 /\ simulation_time f = simulation_time f2 /\
    without_exports tr = without_exports tr1 ++ without_exports tr2.
Proof.
  intros fuel1 fuel2 y o sv t0 next next2 E1 E2 f1 tr1 t1 f2 tr2 Hdt HE H1 Ht1 H2. unfold run_from in *.
  change (resolve_end_time (until E1 o) t0) with (@Ok Qc E1) in H1. change (resolve_end_time (until E2 o) t0) with (@Ok Qc E2).
  change (resolve_end_time (until E2 o) t1) with (@Ok Qc E2) in H2. cbv zeta in *.
  set (p := if export_initial_state sv then _ else _) in *. set (q := if export_initial_state f1 then _ else _) in *.
  assert (Pc : on_clock t0 (o_dt o) (fst p)).
  { unfold p, on_clock. destruct (export_initial_state sv); cbn [do_export fst start_l l_time l_internal]; rewrite qn_0; ring. }
  destruct p as [l0 e0]. cbn [fst] in Pc. rewrite loop_until in H1.
  destruct (loop adv fuel1 y o E1 t0 l0) as [[l1 tr]|e] eqn:El; [|discriminate]. injection H1 as <- <-.
  pose proof (loop_clock _ _ _ _ _ _ _ _ Pc El) as C1.
  cbn [finish simulation_time] in Ht1. injection Ht1 as <-.
  assert (Q : same_l t0 (l_time l1) (o_dt o) l1 (fst q) /\ without_exports (snd q) = []).
  { assert (Z1 : l_time l1 = l_time l1 + qn 0 * o_dt o) by (rewrite qn_0; ring).
    unfold q. destruct (export_initial_state (finish sv l1)); cbn [do_export fst snd start_l finish state]; (split; [|reflexivity]);
      (split; [exact C1|split; [exact Z1|split; reflexivity]]). }
  destruct q as [lq eq]. cbn [fst snd] in Q. destruct Q as (Q1 & Q2). rewrite loop_until in H2.
  pose proof (loop_same fuel2 y o o E2 t0 (l_time l1) l1 lq eq_refl Q1) as L.
  destruct (loop adv fuel2 y o E2 (l_time l1) lq) as [[l2 trq]|e] eqn:Eq; [|discriminate]. injection H2 as <- <-.
  destruct (loop adv fuel2 y o E2 t0 l1) as [[l2' trd]|e] eqn:Ed; [|contradiction].
  destruct L as ((_ & _ & L1 & L2) & L3).
  exists (fuel1 + fuel2)%nat. rewrite loop_until, (loop_split _ _ _ _ _ _ _ _ _ HE El _ _ _ Ed).
  do 2 eexists. split; [reflexivity|]. cbn [finish state simulation_time]. rewrite L1, L2.
  split; [reflexivity|]. split; [reflexivity|]. rewrite !without_app, Q2, L3, app_assoc. reflexivity.
Qed.

(** Calling iterate again with a later end time goes on as if the run had not stopped: the
    same steps at the same times, and the same final state. *)
Theorem C91_iterate_again_2d : forall fuel1 fuel2 o sv E1 E2 f1 tr1 f2 tr2, 0 < o_dt o -> E1 <= E2 ->
  iterate_2d adv fuel1 (until E1 o) sv = Ok (f1, tr1) -> iterate_2d adv fuel2 (until E2 o) f1 = Ok (f2, tr2) ->
  exists fuel f tr, iterate_2d adv fuel (until E2 o) sv = Ok (f, tr) /\
    state f = state f2 /\ simulation_time f = simulation_time f2 /\
    without_exports tr = without_exports tr1 ++ without_exports tr2.
Proof.
  intros fuel1 fuel2 o sv E1 E2 f1 tr1 f2 tr2 Hdt HE H1 H2. unfold iterate_2d in *.
  destruct (simulation_time sv) as [t0|]; [|discriminate]. destruct (simulation_time f1) as [t1|] eqn:Et; [|discriminate].
  exact (run_again _ _ _ _ _ _ _ _ _ _ _ _ _ _ _ Hdt HE H1 Et H2).
Qed.
Theorem C91_iterate_again_3d : forall fuel1 fuel2 o sv E1 E2 f1 tr1 f2 tr2, 0 < o_dt o -> E1 <= E2 ->
  iterate_3d adv fuel1 (until E1 o) sv = Ok (f1, tr1) -> iterate_3d adv fuel2 (until E2 o) f1 = Ok (f2, tr2) ->
  exists fuel f tr, iterate_3d adv fuel (until E2 o) sv = Ok (f, tr) /\
    state f = state f2 /\ simulation_time f = simulation_time f2 /\
    without_exports tr = without_exports tr1 ++ without_exports tr2.
Proof.
  intros fuel1 fuel2 o sv E1 E2 f1 tr1 f2 tr2 Hdt HE H1 H2. unfold iterate_3d in *.
  destruct (simulation_time sv) as [t0|]; [|discriminate]. destruct (simulation_time f1) as [t1|] eqn:Et; [|discriminate].
  exact (run_again _ _ _ _ _ _ _ _ _ _ _ _ _ _ _ Hdt HE H1 Et H2).
Qed.
End Runs.

(** With the initial export off (a run resumed in its own output directory) the parts of a
    3D run also write what the whole run writes. *)
Section Parts.
Variable S : Type.
Variable adv : Qc -> S -> S.
Definition rebased (t0 t0' dt : Qc) (l l' : lstate S) : Prop :=
  l_time l = t0 + qn (l_internal l) * dt /\ l_time l' = t0' + qn (l_internal l') * dt /\
  l_time l' = l_time l /\ l_iteration l' = l_iteration l /\ l_i_export l' = l_i_export l /\
  l_next l' = l_next l /\ l_ix l' = l_ix l /\ l_state l' = l_state l.
Lemma loop_rebased : forall fuel y o E t0 t0' l l', rebased t0 t0' (o_dt o) l l' ->
  match loop adv fuel y o E t0 l, loop adv fuel y o E t0' l' with
  | Ok (f, tr), Ok (f', tr') => rebased t0 t0' (o_dt o) f f' /\ tr' = tr
  | Err e, Err e' => e = e'
  | _, _ => False
  end.
Proof.
  induction fuel as [|fuel IH]; intros y o E t0 t0' l l' Hl; [reflexivity|].
  cbn [loop]. pose proof Hl as (H1 & H2 & H3 & H4 & H5 & H6 & H7 & H8). rewrite H3. destruct (Qcleb _ _); [|split; [exact Hl|reflexivity]].
  assert (T : t0' + qn (Datatypes.S (l_internal l')) * o_dt o = t0 + qn (Datatypes.S (l_internal l)) * o_dt o).
  { rewrite !clock_step, <- H1, <- H2, H3. reflexivity. }
  assert (B : rebased t0 t0' (o_dt o) (fst (body adv y o t0 l)) (fst (body adv y o t0' l')) /\
              snd (body adv y o t0' l') = snd (body adv y o t0 l)).
  { unfold body. cbv zeta. rewrite T, H3, H4, H5, H6, H7, H8.
    destruct (Qcleb (l_next l - _) _); cbn [do_export fst snd]; (split; [repeat split; cbn; rewrite ?T; reflexivity|reflexivity]). }
  destruct (body adv y o t0 l) as [m evs], (body adv y o t0' l') as [m' evs']. cbn [fst snd] in B. destruct B as [B1 ->].
  specialize (IH y o E t0 t0' m m' B1). destruct (loop adv fuel y o E t0 m) as [[f tr]|e], (loop adv fuel y o E t0' m') as [[f' tr']|e'];
    try contradiction; [|exact IH].
  destruct IH as [I1 ->]. split; [exact I1|reflexivity].
Qed.

Theorem C91_parts_write_the_same_3d : forall fuel1 fuel2 o sv E1 E2 f1 tr1 f2 tr2, 0 < o_dt o -> E1 <= E2 ->
  export_initial_state sv = false ->
  iterate_3d adv fuel1 (until E1 o) sv = Ok (f1, tr1) -> iterate_3d adv fuel2 (until E2 o) f1 = Ok (f2, tr2) ->
  exists fuel, iterate_3d adv fuel (until E2 o) sv = Ok (f2, tr1 ++ tr2).
Proof.
  intros fuel1 fuel2 o sv E1 E2 f1 tr1 f2 tr2 Hdt HE Hx H1 H2. unfold iterate_3d in *.
  destruct (simulation_time sv) as [t0|]; [|discriminate]. unfold run_from in H1. rewrite Hx in H1.
  change (resolve_end_time (until E1 o) t0) with (@Ok Qc E1) in H1. cbv beta iota zeta in H1. rewrite loop_until in H1.
  set (l0 := start_l sv t0 (next_export_t sv)) in *.
  destruct (loop adv fuel1 false o E1 t0 l0) as [[l1 tr]|e] eqn:El; [|discriminate]. injection H1 as <- <-.
  assert (C0 : on_clock S t0 (o_dt o) l0) by (unfold on_clock, l0; cbn; rewrite qn_0; ring).
  pose proof (loop_clock S adv _ _ _ _ _ _ _ _ C0 El) as C1.
  cbn [finish simulation_time next_export_t] in H2. unfold run_from in H2. cbn [finish export_initial_state] in H2. rewrite Hx in H2.
  change (resolve_end_time (until E2 o) (l_time l1)) with (@Ok Qc E2) in H2. cbv beta iota zeta in H2. rewrite loop_until in H2.
  set (lq := start_l (finish sv l1) (l_time l1) (l_next l1)) in *.
  assert (Q1 : rebased t0 (l_time l1) (o_dt o) l1 lq).
  { split; [exact C1|]. split; [unfold lq; cbn; rewrite qn_0; ring|]. repeat split. }
  pose proof (loop_rebased fuel2 false o E2 t0 (l_time l1) l1 lq Q1) as L.
  destruct (loop adv fuel2 false o E2 (l_time l1) lq) as [[l2 trq]|e] eqn:Eq; [|discriminate]. injection H2 as <- <-.
  destruct (loop adv fuel2 false o E2 t0 l1) as [[l2' trd]|e] eqn:Ed; [|contradiction].
  destruct L as ((_ & _ & L3 & L4 & L5 & L6 & L7 & L8) & ->).
  exists (fuel1 + fuel2)%nat. unfold run_from. rewrite Hx.
  change (resolve_end_time (until E2 o) t0) with (@Ok Qc E2). cbv beta iota zeta. fold l0.
  rewrite loop_until, (loop_split S adv _ _ _ _ _ _ _ _ _ HE El _ _ _ Ed).
  unfold finish. rewrite L3, L4, L5, L6, L7, L8. cbn [export_initial_state app]. rewrite Hx. reflexivity.
Qed.

(* ------------------------------------------------------------------ *)
(** * The start of the clock *)
Variable adv' : Qc -> S -> S.
Variable tau : Qc.
(** the forcings of the second run are those of the first, [tau] later *)
Hypothesis Hadv : forall t s, adv' (t + tau) s = adv t s.

Lemma Qcleb_shift : forall x y, Qcleb (x + tau) (y + tau) = Qcleb x y.
Proof.
  intros x y. destruct (Qcleb_spec (x + tau) (y + tau)) as [H|H], (Qcleb_spec x y) as [G|G]; try reflexivity; exfalso.
  - apply G. assert (x = (x + tau) + - tau) as -> by ring. assert (y = (y + tau) + - tau) as -> by ring.
    apply Qcplus_le_compat; [exact H|apply Qcle_refl].
  - apply H. apply Qcplus_le_compat; [exact G|apply Qcle_refl].
Qed.
Definition moved (l l' : lstate S) : Prop :=
  l_time l' = l_time l + tau /\ l_internal l' = l_internal l /\ l_iteration l' = l_iteration l /\
  l_i_export l' = l_i_export l /\ l_next l' = l_next l + tau /\ l_ix l' = l_ix l /\ l_state l' = l_state l.
Lemma loop_moved : forall fuel y o E t0 l l', moved l l' ->
  match loop adv fuel y o E t0 l, loop adv' fuel y o (E + tau) (t0 + tau) l' with
  | Ok (f, tr), Ok (f', tr') => moved f f' /\ tr' = map (later tau) tr
  | Err e, Err e' => e = e'
  | _, _ => False
  end.
Proof.
  induction fuel as [|fuel IH]; intros y o E t0 l l' Hl; [reflexivity|].
  cbn [loop]. pose proof Hl as (H1 & H2 & H3 & H4 & H5 & H6 & H7). rewrite H1.
  replace (E + tau - t_epsilon) with (E - t_epsilon + tau) by ring. rewrite Qcleb_shift.
  destruct (Qcleb _ _); [|split; [exact Hl|reflexivity]].
  assert (B : moved (fst (body adv y o t0 l)) (fst (body adv' y o (t0 + tau) l')) /\
              snd (body adv' y o (t0 + tau) l') = map (later tau) (snd (body adv y o t0 l))).
  { unfold body. cbv zeta. rewrite H1, H2, H3, H4, H5, H6, H7, Hadv.
    replace (l_next l + tau - t_epsilon) with (l_next l - t_epsilon + tau) by ring.
    set (n := qn (Datatypes.S (l_internal l)) * o_dt o).
    assert (T : t0 + tau + n = t0 + n + tau) by ring. rewrite T, Qcleb_shift.
    destruct (Qcleb (l_next l - _) _); cbn [do_export fst snd]; (split; [repeat split; cbn; try ring|destruct y; reflexivity]). }
  destruct (body adv y o t0 l) as [m evs], (body adv' y o (t0 + tau) l') as [m' evs']. cbn [fst snd] in B. destruct B as [B1 ->].
  specialize (IH y o E t0 m m' B1). destruct (loop adv fuel y o E t0 m) as [[f tr]|e], (loop adv' fuel y o (E + tau) (t0 + tau) m') as [[f' tr']|e'];
    try contradiction; [|exact IH].
  destruct IH as [I1 ->]. split; [exact I1|]. rewrite map_app. reflexivity.
Qed.
Lemma run_moved : forall fuel y o sv t0 next E,
  match run_from adv fuel y (until E o) sv t0 next, run_from adv' fuel y (until (E + tau) o) (clock_moved tau sv) (t0 + tau) (next + tau) with
  | Ok (f, tr), Ok (f', tr') => f' = clock_moved tau f /\ tr' = map (later tau) tr
  | Err e, Err e' => e = e'
  | _, _ => False
  end.
Proof.
  intros fuel y o sv t0 next E. unfold run_from.
  change (resolve_end_time (until E o) t0) with (@Ok Qc E). change (resolve_end_time (until (E + tau) o) (t0 + tau)) with (@Ok Qc (E + tau)).
  cbv zeta. change (export_initial_state (clock_moved tau sv)) with (export_initial_state sv).
  set (p := if export_initial_state sv then let '(l, e) := do_export (start_l sv t0 next) in _ else _).
  set (q := if export_initial_state sv then let '(l, e) := do_export (start_l (clock_moved tau sv) _ _) in _ else _).
  assert (P : moved (fst p) (fst q) /\ snd q = map (later tau) (snd p)).
  { unfold p, q. destruct (export_initial_state sv); cbn [do_export fst snd]; repeat split. }
  destruct p as [l e], q as [l' e']. cbn [fst snd] in P. destruct P as [P1 ->].
  pose proof (loop_moved fuel y o E t0 l l' P1) as L. rewrite !loop_until.
  destruct (loop adv fuel y o E t0 l) as [[f tr]|x], (loop adv' fuel y o (E + tau) (t0 + tau) l') as [[f' tr']|x']; try contradiction; [|exact L].
  destruct L as ((L1 & L2 & L3 & L4 & L5 & L6 & L7) & ->). split; [|rewrite map_app; reflexivity].
  unfold finish, clock_moved. cbn. rewrite L1, L3, L4, L5, L6, L7. reflexivity.
Qed.

(** A run whose clock, end time and forcings are all [tau] later does exactly the same, [tau] later. *)
Theorem C91_clock_start_2d : forall fuel o sv E,
  match iterate_2d adv fuel (until E o) sv, iterate_2d adv' fuel (until (E + tau) o) (clock_moved tau sv) with
  | Ok (f, tr), Ok (f', tr') =>
      state f' = state f /\ simulation_time f' = option_map (fun t => t + tau) (simulation_time f) /\ tr' = map (later tau) tr
  | Err e, Err e' => e = e'
  | _, _ => False
  end.
Proof.
  intros fuel o sv E. unfold iterate_2d. cbn [clock_moved simulation_time option_map]. destruct (simulation_time sv) as [t0|]; [|reflexivity].
  cbn [option_map]. change (o_export_time (until (E + tau) o)) with (o_export_time o). change (o_export_time (until E o)) with (o_export_time o).
  replace (t0 + tau + o_export_time o) with (t0 + o_export_time o + tau) by ring.
  pose proof (run_moved fuel true o sv t0 (t0 + o_export_time o) E) as L. unfold clock_moved in L.
  destruct (run_from adv _ _ _ _ _ _) as [[f tr]|x], (run_from adv' _ _ _ _ _ _) as [[f' tr']|x']; try contradiction; [|exact L].
  destruct L as [-> ->]. repeat split.
Qed.
Theorem C91_clock_start_3d : forall fuel o sv E,
  match iterate_3d adv fuel (until E o) sv, iterate_3d adv' fuel (until (E + tau) o) (clock_moved tau sv) with
  | Ok (f, tr), Ok (f', tr') =>
      state f' = state f /\ simulation_time f' = option_map (fun t => t + tau) (simulation_time f) /\ tr' = map (later tau) tr
  | Err e, Err e' => e = e'
  | _, _ => False
  end.
Proof.
  intros fuel o sv E. unfold iterate_3d. cbn [clock_moved simulation_time option_map]. destruct (simulation_time sv) as [t0|]; [|reflexivity].
  cbn [option_map].
  pose proof (run_moved fuel false o sv t0 (next_export_t sv) E) as L. unfold clock_moved in L.
  cbn [next_export_t]. destruct (run_from adv _ _ _ _ _ _) as [[f tr]|x], (run_from adv' _ _ _ _ _ _) as [[f' tr']|x']; try contradiction; [|exact L].
  destruct L as [-> ->]. repeat split.
Qed.
End Parts.

(* ------------------------------------------------------------------ *)
(** * The velocity during a 3D export *)
Section Fields.
Variables D X : Type.
Variable adv : Qc -> fields3 D X -> fields3 D X.

(** what is written: the total velocity, solver.py:994-996 *)
Definition written (e : event (fields3 D X)) : event (fields3 D X) :=
  match e with
  | Export r => Export (mkExport (ev_i_export r) (ev_indices r) (ev_time r) (ev_iteration r) (add_dav (ev_state r)))
  | e => e
  end.

Lemma sub_add_dav : forall s : fields3 D X, sub_dav D X (add_dav s) = s.
Proof.
  intros [u d x]. unfold sub_dav, add_dav. cbn. f_equal. apply functional_extensionality. intro i. ring.
Qed.

(** As long as no exporter raises, the loop that really adds and subtracts the depth average
    is the loop that leaves the fields alone, and the files hold the total velocity. *)
Theorem C91_exports_leave_the_fields_3d : forall (fails : Qc -> bool), (forall t, fails t = false) ->
  forall fuel o E t0 l,
  match loop adv fuel false o E t0 l, loop_w D X adv fails fuel o E t0 l with
  | Ok (f, tr), Ok (Ended f' tr') => f' = f /\ tr' = map written tr
  | Err e, Err e' => e = e'
  | _, _ => False
  end.
Proof.
  intros fails Hf. induction fuel as [|fuel IH]; intros o E t0 l; [reflexivity|].
  cbn [loop loop_w]. destruct (Qcleb _ _); [|split; reflexivity].
  assert (B : body_w D X adv fails o t0 l = (fst (body adv false o t0 l), map written (snd (body adv false o t0 l)), false)).
  { unfold body_w, body. cbv zeta. destruct (Qcleb (l_next l - _) _); [|reflexivity].
    unfold do_export_w, export_fields. rewrite Hf. cbv zeta. cbn [l_time l_state do_export fst snd]. rewrite sub_add_dav. reflexivity. }
  rewrite B. destruct (body adv false o t0 l) as [m evs]. cbn [fst snd].
  specialize (IH o E t0 m). destruct (loop adv fuel false o E t0 m) as [[f tr]|e], (loop_w D X adv fails fuel o E t0 m) as [[f' tr'|f' tr']|e'];
    try contradiction; [|exact IH].
  destruct IH as [-> ->]. split; [reflexivity|]. rewrite map_app. reflexivity.
Qed.
End Fields.

(** In double precision the subtraction does not undo the addition: writing results changes
    the velocity that the run goes on with. A deviation of 2^-60 is lost beside a depth average
    of 1; 0.1 beside 0.2 comes back as another number. *)
Theorem C91_export_rounding_3d_refuted :
  let two_m60 := S754_finite false 4503599627370496 (-112) in
  let one := S754_finite false 4503599627370496 (-52) in
  let tenth := S754_finite false 7205759403792794 (-56) in
  let fifth := S754_finite false 7205759403792794 (-55) in
  export_entry_float two_m60 one = S754_zero false /\ export_entry_float tenth fifth <> tenth.
Proof. cbv zeta. split; vm_compute; [reflexivity|discriminate]. Qed.

(** A failing exporter leaves the total velocity in uv_3d. *)
Theorem C91_failed_export_3d_refuted :
  exists (adv : Qc -> fields3 unit unit -> fields3 unit unit) fails o l f tr,
  loop_w unit unit adv fails 5 o (qz 10) 0 l = Ok (Raised f tr) /\
  uv_3d (l_state l) tt = 1 /\ uv_dav_3d (l_state l) tt = 1 /\ (forall t s, adv t s = s) /\ uv_3d (l_state f) tt = qz 2.
Proof.
  exists (fun _ s => s), (fun _ => true), (mkOptions (qz 1) (qz 1) (Some (qz 10)) None None),
    (mkL 0 0 0 0 (qz 1) [0%Z] (mkF3 (fun _ => 1) (fun _ => 1) tt)).
  do 2 eexists. split; [reflexivity|]. split; [reflexivity|]. split; [reflexivity|]. split; [reflexivity|]. reflexivity.
Qed.

(** The interval between exports enters the 3D time step, so there it does change the run. *)
Theorem C91_export_interval_3d_refuted :
  exists udt T1 T2, fst (fst (set_time_step Mode3d false 0 0 udt udt T1)) <> fst (fst (set_time_step Mode3d false 0 0 udt udt T2)).
Proof.
  exists (qz 4), (qz 12), (qz 10). intro H. apply (f_equal (fun x => this x)) in H. vm_compute in H. discriminate.
Qed.

(** Calling iterate again writes the state at the break a second time; every later file of the
    exporters is numbered one higher than i_export. *)
Theorem C91_written_twice_refuted : forall (S : Type) (adv : Qc -> S -> S) (s : S),
  let o := mkOptions (qz 1) (qz 1) None None None in
  match iterate_2d adv 9 (until (qz 3) o) (fresh o 1 s) with
  | Ok (_, tr) => map ev_indices (exports tr) = [[0]; [1]; [2]; [3]]%Z
  | Err _ => False
  end /\
  match iterate_2d adv 9 (until (qz 2) o) (fresh o 1 s) with
  | Ok (f1, tr1) =>
      match iterate_2d adv 9 (until (qz 3) o) f1 with
      | Ok (_, tr2) => map ev_indices (exports tr1 ++ exports tr2) = [[0]; [1]; [2]; [3]; [4]]%Z /\
                       map ev_i_export (exports tr1 ++ exports tr2) = [0; 1; 2; 2; 3]%Z
      | Err _ => False
      end
  | Err _ => False
  end.
Proof. intros S adv s. vm_compute. repeat split. Qed.

(* ------------------------------------------------------------------ *)
(** * Examples *)
(** A 2D run of 10 s with steps of 3 s: written every 5 s from the start, or every 2 s in three
    formats without the initial state. *)
Example C91_watching_example :
  let o := mkOptions (qz 3) (qz 5) (Some (qz 10)) None None in
  let o' := mkOptions (qz 3) (qz 2) (Some (qz 10)) None None in
  let sv := fresh o 1 (qz 1) in
  let sv' := mkSolver (Some 0) 7 4 0 false [0; 3; 5]%Z (qz 1) in
  same_computation o o' /\ state sv' = state sv /\ simulation_time sv' = simulation_time sv /\
  match iterate_2d (fun t s => s + t) 9 o sv, iterate_2d (fun t s => s + t) 9 o' sv' with
  | Ok (f, tr), Ok (f', tr') => this (state f) = inject_Z 19 /\ this (state f') = inject_Z 19 /\
      List.length (exports tr) = 3%nat /\ List.length (exports tr') = 4%nat
  | _, _ => False
  end.
Proof. cbv zeta. split; [repeat split|]. split; [reflexivity|]. split; [reflexivity|]. vm_compute. repeat split. Qed.

Example C91_longer_example :
  let o := mkOptions (qz 3) (qz 5) None None None in
  match iterate_2d (fun t s => s + t) 9 (until (qz 10) o) (fresh o 1 (qz 1)), iterate_2d (fun t s => s + t) 9 (until (qz 20) o) (fresh o 1 (qz 1)) with
  | Ok (f1, tr1), Ok (f2, tr2) => List.length tr1 = 15%nat /\ List.length tr2 = 26%nat /\ this (state f1) = inject_Z 19 /\ this (state f2) = inject_Z 64
  | _, _ => False
  end.
Proof. vm_compute. repeat split. Qed.

(** In two parts: to 10 s, then to 20 s. *)
Example C91_again_example :
  let o := mkOptions (qz 3) (qz 5) None None None in
  match iterate_3d (fun t s => s + t) 9 (until (qz 10) o) (fresh o 1 (qz 1)) with
  | Ok (f1, tr1) =>
      match iterate_3d (fun t s => s + t) 9 (until (qz 20) o) f1 with
      | Ok (f2, tr2) => this (state f2) = inject_Z 64 /\ List.length (advances tr1) = 4%nat /\ List.length (advances tr2) = 3%nat
      | _ => False
      end
  | _ => False
  end.
Proof. vm_compute. repeat split. Qed.

(** An hour later, with forcings that are an hour late. *)
Example C91_clock_example :
  let adv := fun t s => s + t in
  let adv' := fun t s => s + (t - qz 3600) in
  (forall t s, adv' (t + qz 3600) s = adv t s) /\
  let o := mkOptions (qz 3) (qz 5) None None None in
  match iterate_2d adv 9 (until (qz 10) o) (fresh o 1 (qz 1)),
        iterate_2d adv' 9 (until (qz 10 + qz 3600) o) (clock_moved (qz 3600) (fresh o 1 (qz 1))) with
  | Ok (f, _), Ok (f', _) => this (state f') = inject_Z 19 /\ option_map this (simulation_time f') = Some (inject_Z 3612)
  | _, _ => False
  end.
Proof. cbv zeta. split; [intros; ring|]. vm_compute. repeat split. Qed.

(** Three exports of a 3D run; the files hold deviation plus depth average. *)
Example C91_fields_example :
  let o := mkOptions (qz 3) (qz 5) (Some (qz 10)) None None in
  match loop_w unit unit (fun _ s => mkF3 (fun i => uv_3d s i + 1) (uv_dav_3d s) tt) (fun _ => false) 9 o (qz 10) 0
          (mkL 0 0 0 0 (qz 5) [0%Z] (mkF3 (fun _ => 1) (fun _ => qz 7) tt)) with
  | Ok (Ended f tr) => this (uv_3d (l_state f) tt) = inject_Z 5 /\
      map (fun r => this (uv_3d (ev_state r) tt)) (exports tr) = [inject_Z 10; inject_Z 12]
  | _ => False
  end.
Proof. vm_compute. repeat split. Qed.

Print Assumptions C91_watching_2d.
Print Assumptions C91_longer_run_2d.
Print Assumptions C91_iterate_again_2d.
Print Assumptions C91_parts_write_the_same_3d.
Print Assumptions C91_clock_start_2d.
Print Assumptions C91_exports_leave_the_fields_3d.
Print Assumptions C91_export_rounding_3d_refuted.
Print Assumptions C91_failed_export_3d_refuted.
Print Assumptions C91_written_twice_refuted.
