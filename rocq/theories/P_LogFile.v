(** C73: the log file of the 3D solver. *)
From Coq Require Import List Bool Arith Lia.
From Verif Require Import LogFile_Model.
Import ListNotations.

Section P.
Variable byte : Type.
Variable nul : byte.
Notation bytes := (list byte).
Notation event := (event byte).
Notation Output := (Output byte).
Notation Warning := (Warning byte).
Notation Equations := (Equations byte).
Notation content := (content byte).
Notation run := (run byte nul).
Notation step := (step byte nul).
Notation init := (init byte).
Notation out := (out byte).
Notation warn := (warn byte).
Notation write_at := (write_at byte nul).
Notation write_all := (write_all byte nul).

(** ** keep_log: what is written, for any schedule of any number of ranks *)
Definition times (n : nat) (l : bytes) : bytes := concat (repeat l n).
Definition own (r : nat) : nat := if Nat.eqb r 0 then 1 else 0.
(** [made r]: how often rank r has created equations *)
Fixpoint kept (made : nat -> nat) (es : list event) : bytes :=
  match es with
  | [] => []
  | LogFile_Model.Output _ r l :: es => times (own r + made r) l ++ kept made es
  | LogFile_Model.Warning _ r l :: es => times (own r) l ++ kept made es
  | LogFile_Model.Equations _ r _ :: es => kept (fun q => if Nat.eqb q r then S (made q) else made q) es
  end.
Definition keeping (es : list event) : Prop := forall r k, In (Equations r k) es -> k = true.

Lemma write_all_append : forall n l c, write_all l c (repeat Append n) = (c ++ times n l, repeat Append n).
Proof.
  induction n as [|n IH]; intros l c; cbn [repeat LogFile_Model.write_all]; [unfold times; cbn; rewrite app_nil_r; reflexivity |].
  cbn [write]. rewrite IH. unfold times. cbn [repeat concat]. rewrite <- app_assoc. reflexivity.
Qed.
Lemma kept_run : forall es s made, keeping es ->
  (forall r, out s r = repeat Append (own r + made r)) -> (forall r, warn s r = repeat Append (own r)) ->
  content (run s es) = content s ++ kept made es.
Proof.
  induction es as [|e es IH]; intros s made K Ho Hw; [cbn; rewrite app_nil_r; reflexivity |].
  assert (K' : keeping es) by (intros r k H; apply (K r k); right; exact H).
  unfold LogFile_Model.run. cbn [fold_left]. change (content (run (step s e) es) = content s ++ kept made (e :: es)).
  destruct e as [r l|r l|r k]; cbn [LogFile_Model.step kept].
  - rewrite Ho, write_all_append.
    rewrite (IH _ made K'); [cbn [LogFile_Model.content]; rewrite <- app_assoc; reflexivity | |exact Hw].
    intros q. cbn [LogFile_Model.out]. unfold upd. destruct (Nat.eqb q r) eqn:E; [apply Nat.eqb_eq in E; subst; reflexivity | apply Ho].
  - rewrite Hw, write_all_append.
    rewrite (IH _ made K'); [cbn [LogFile_Model.content]; rewrite <- app_assoc; reflexivity | exact Ho |].
    intros q. cbn [LogFile_Model.warn]. unfold upd. destruct (Nat.eqb q r) eqn:E; [apply Nat.eqb_eq in E; subst; reflexivity | apply Hw].
  - rewrite (K r k (or_introl eq_refl)).
    rewrite (IH _ (fun q => if Nat.eqb q r then S (made q) else made q) K'); [reflexivity | | exact Hw].
    intros q. cbn [LogFile_Model.out]. unfold upd. destruct (Nat.eqb q r) eqn:E; [| apply Ho].
    apply Nat.eqb_eq in E. subst q. rewrite Ho. replace (own r + S (made r)) with (own r + made r + 1) by lia.
    rewrite (repeat_app Append (own r + made r) 1). reflexivity.
Qed.
Theorem C73_keep_log : forall buf es, keeping es ->
  content (run (init buf) es) = buf ++ kept (fun _ => 0) es.
Proof.
  intros buf es K. rewrite (kept_run es (init buf) (fun _ => 0) K); [reflexivity | |];
    intros r; cbn; unfold own; destruct (Nat.eqb r 0); reflexivity.
Qed.

(** A run of n ranks that each create a solver and print the same lines: every line is in
    the file n + 1 times. *)
Definition collective (n : nat) (ls : list bytes) : list event :=
  flat_map (fun l => map (fun r => Output r l) (seq 0 n)) ls.
Lemma kept_outputs : forall rs made l es, (forall r, In r rs -> made r = 1) ->
  kept made (map (fun r => Output r l) rs ++ es) =
  times (length rs + list_sum (map own rs)) l ++ kept made es.
Proof.
  induction rs as [|r rs IH]; intros made l es H; [reflexivity |].
  cbn [map app kept length list_sum fold_right]. rewrite (H r (or_introl eq_refl)), IH by (intros q Hq; apply H; right; exact Hq).
  rewrite app_assoc. f_equal. unfold times. rewrite <- concat_app, <- repeat_app. f_equal. f_equal.
  unfold list_sum. lia.
Qed.
Lemma kept_creations : forall rs made es, NoDup rs ->
  exists made', kept made (map (fun r => Equations r true) rs ++ es) = kept made' es /\
    (forall q, In q rs -> made' q = S (made q)) /\ (forall q, ~ In q rs -> made' q = made q).
Proof.
  induction rs as [|r rs IH]; intros made es D; [exists made; repeat split; auto; intros q [] |].
  inversion D as [|? ? Hn D']; subst. cbn [map app kept].
  destruct (IH (fun q => if Nat.eqb q r then S (made q) else made q) es D') as [m [E [A B]]].
  exists m. split; [exact E |]. split.
  - intros q [->|H].
    + rewrite B by exact Hn. rewrite Nat.eqb_refl. reflexivity.
    + rewrite A by exact H. destruct (Nat.eqb q r) eqn:X; [apply Nat.eqb_eq in X; subst; contradiction | reflexivity].
  - intros q H. rewrite B by (intros X; apply H; right; exact X).
    destruct (Nat.eqb q r) eqn:X; [apply Nat.eqb_eq in X; subst; exfalso; apply H; left; reflexivity | reflexivity].
Qed.
Lemma own_sum : forall n, list_sum (map own (seq 0 (S n))) = 1.
Proof.
  intros n. cbn. assert (H : forall k m, list_sum (map own (seq (S m) k)) = 0) by (induction k; intros m; cbn; auto).
  unfold list_sum in H. rewrite H. reflexivity.
Qed.
Theorem C73_keep_log_repeats_refuted : forall n buf ls,
  content (run (init buf) (map (fun r => Equations r true) (seq 0 (S n)) ++ collective (S n) ls)) =
  buf ++ flat_map (times (n + 2)) ls.
Proof.
  intros n buf ls. rewrite C73_keep_log.
  2:{ intros r k H. apply in_app_or in H. destruct H as [H|H].
      - apply in_map_iff in H. destruct H as [q [E _]]. injection E as _ <-. reflexivity.
      - apply in_flat_map in H. destruct H as [l [_ H]]. apply in_map_iff in H. destruct H as [q [E _]]. discriminate. }
  f_equal. destruct (kept_creations (seq 0 (S n)) (fun _ => 0) (collective (S n) ls) (seq_NoDup (S n) 0)) as [m [-> [A _]]].
  induction ls as [|l ls IH]; [reflexivity |]. unfold collective. cbn [flat_map].
  fold (collective (S n) ls). rewrite (kept_outputs (seq 0 (S n)) m l).
  - rewrite IH. rewrite seq_length, own_sum. replace (S n + 1) with (n + 2) by lia. reflexivity.
  - intros r H. apply A. exact H.
Qed.

(** ** keep_log = False, one rank *)
Definition line (e : event) : bytes :=
  match e with LogFile_Model.Output _ _ l | LogFile_Model.Warning _ _ l => l | LogFile_Model.Equations _ _ _ => [] end.
Definition out_line (e : event) : bytes := match e with LogFile_Model.Output _ _ l => l | _ => [] end.
(** rank 0 logs, and creates no solver *)
Definition logging (es : list event) : Prop := forall e, In e es ->
  match e with LogFile_Model.Output _ r _ | LogFile_Model.Warning _ r _ => r = 0 | LogFile_Model.Equations _ _ _ => False end.

Lemma write_at_inside : forall off l c, off <= length c -> write_at off l c = firstn off c ++ l ++ skipn (off + length l) c.
Proof. intros off l c H. unfold LogFile_Model.write_at, pad. replace (off - length c) with 0 by lia. cbn. rewrite app_nil_r. reflexivity. Qed.

Lemma skipn_skipn : forall (y x : nat) (l : bytes), skipn x (skipn y l) = skipn (x + y) l.
Proof.
  induction y as [|y IH]; intros x l; [rewrite Nat.add_0_r; reflexivity |].
  destruct l as [|a l]; [rewrite !skipn_nil; reflexivity |]. rewrite Nat.add_succ_r. cbn [skipn]. apply IH.
Qed.
Lemma overwrite_run : forall es s O L, logging es -> out s 0 = [Append; At (length O)] -> warn s 0 = [Append] ->
  length O <= length L -> content s = O ++ skipn (length O) L ->
  content (run s es) = (O ++ flat_map out_line es) ++ skipn (length (O ++ flat_map out_line es)) (L ++ flat_map line es).
Proof.
  induction es as [|e es IH]; intros s O L G Ho Hw HL Hc.
  - cbn [flat_map]. rewrite !app_nil_r. exact Hc.
  - assert (G' : logging es) by (intros x Hx; apply G; right; exact Hx).
    pose proof (G e (or_introl eq_refl)) as Ge.
    unfold LogFile_Model.run. cbn [fold_left]. change (fold_left step es (step s e)) with (run (step s e) es).
    destruct e as [r l|r l|r k]; [subst r | subst r | contradiction]; cbn [LogFile_Model.step].
    + rewrite Ho. cbn [LogFile_Model.write_all write].
      cbn [flat_map out_line line]. rewrite !app_assoc.
      apply IH; [exact G' | | exact Hw | |].
      * cbn. rewrite app_length. reflexivity.
      * rewrite !app_length. lia.
      * cbn [LogFile_Model.content]. rewrite Hc.
        rewrite write_at_inside by (rewrite !app_length; lia).
        rewrite <- !app_assoc. rewrite firstn_app, Nat.sub_diag, firstn_all. cbn [firstn]. rewrite app_nil_r.
        f_equal. f_equal. rewrite app_length.
        rewrite skipn_app, skipn_all2 by lia. cbn [app].
        replace (length O + length l - length O) with (length l) by lia.
        rewrite (skipn_app (length O + length l)).
        rewrite (skipn_app (length l)).
        rewrite skipn_skipn. rewrite skipn_length. f_equal.
        -- f_equal. lia.
        -- f_equal. lia.
    + rewrite Hw. cbn [LogFile_Model.write_all write].
      cbn [flat_map out_line line]. rewrite (app_assoc L).
      apply IH; [exact G' | exact Ho | reflexivity | rewrite app_length; lia |].
      cbn [LogFile_Model.content]. rewrite Hc, <- app_assoc. f_equal. rewrite skipn_app.
      replace (length O - length L) with 0 by lia. reflexivity.
Qed.

Lemma run_app : forall s a b, run s (a ++ b) = run (run s a) b.
Proof. intros. unfold LogFile_Model.run. apply fold_left_app. Qed.
Lemma logging_handlers : forall es s, logging es -> out s 0 = [Append] -> warn s 0 = [Append] ->
  out (run s es) 0 = [Append] /\ warn (run s es) 0 = [Append].
Proof.
  induction es as [|e es IH]; intros s G Ho Hw; [auto |].
  assert (G' : logging es) by (intros x Hx; apply G; right; exact Hx).
  pose proof (G e (or_introl eq_refl)) as Ge. unfold LogFile_Model.run. cbn [fold_left].
  change (fold_left step es (step s e)) with (run (step s e) es).
  destruct e as [r l|r l|r k]; [subst r | subst r | contradiction]; apply IH; try exact G'; cbn; rewrite ?Ho, ?Hw; cbn; auto.
Qed.

(** Creating the equations empties the file.  What is logged afterwards: the output lines
    at the beginning, one after the other, and then whatever of all that was logged reaches
    beyond them. *)
Theorem C73_overwrite : forall buf es1 es2, logging es1 -> logging es2 ->
  let outputs := flat_map out_line es2 in
  content (run (init buf) (es1 ++ Equations 0 false :: es2)) =
  outputs ++ skipn (length outputs) (flat_map line es2).
Proof.
  intros buf es1 es2 G1 G2. cbv zeta. rewrite run_app.
  destruct (logging_handlers es1 (init buf) G1 eq_refl eq_refl) as [Ho Hw].
  unfold LogFile_Model.run at 1. cbn [fold_left LogFile_Model.step].
  set (s := mkSt byte [] _ _).
  change (content (run s es2) = flat_map out_line es2 ++ skipn (length (flat_map out_line es2)) (flat_map line es2)).
  rewrite (overwrite_run es2 s [] [] G2); [reflexivity | | | cbn; lia | reflexivity].
  - subst s. cbn [LogFile_Model.out]. unfold upd. cbn [Nat.eqb]. rewrite Ho. reflexivity.
  - subst s. cbn [LogFile_Model.warn]. exact Hw.
Qed.
(** Output alone is kept, each line once; everything logged before is lost. *)
Theorem C73_output_only : forall buf es1 ls, logging es1 ->
  content (run (init buf) (es1 ++ Equations 0 false :: map (Output 0) ls)) = concat ls.
Proof.
  intros buf es1 ls G1. rewrite C73_overwrite; [| exact G1 |].
  2:{ intros e H. apply in_map_iff in H. destruct H as [l [<- _]]. reflexivity. }
  assert (E1 : flat_map out_line (map (Output 0) ls) = concat ls) by (induction ls as [|l ls IH]; cbn; [reflexivity | rewrite IH; reflexivity]).
  assert (E2 : flat_map line (map (Output 0) ls) = concat ls) by (clear; induction ls as [|l ls IH]; cbn; [reflexivity | rewrite IH; reflexivity]).
  rewrite E1, E2, skipn_all. apply app_nil_r.
Qed.
(** A warning followed by at least as much output is gone; as many bytes at the end of the
    output appear twice. *)
Theorem C73_warning_lost_refuted : forall buf es1 w ls, logging es1 -> length w <= length (concat ls) ->
  content (run (init buf) (es1 ++ Equations 0 false :: Warning 0 w :: map (Output 0) ls)) =
  concat ls ++ skipn (length (concat ls) - length w) (concat ls).
Proof.
  intros buf es1 w ls G1 Hl. rewrite C73_overwrite; [| exact G1 |].
  2:{ intros e [<-|H]; [reflexivity |]. apply in_map_iff in H. destruct H as [l [<- _]]. reflexivity. }
  cbn [flat_map out_line line app].
  assert (E1 : flat_map out_line (map (Output 0) ls) = concat ls) by (clear; induction ls as [|l ls IH]; cbn; [reflexivity | rewrite IH; reflexivity]).
  assert (E2 : flat_map line (map (Output 0) ls) = concat ls) by (clear; induction ls as [|l ls IH]; cbn; [reflexivity | rewrite IH; reflexivity]).
  rewrite E1, E2. f_equal. rewrite skipn_app, skipn_all2 by exact Hl. reflexivity.
Qed.

Lemma position_run : forall ls s p, out s 0 = [Append; At p] ->
  out (fold_left step (map (Output 0) ls) s) 0 = [Append; At (p + length (concat ls))].
Proof.
  induction ls as [|l ls IH]; intros s p A; cbn [map fold_left concat length]; [rewrite Nat.add_0_r; exact A |].
  rewrite app_length, Nat.add_assoc. apply IH. cbn. rewrite A. cbn. reflexivity.
Qed.
(** A second solver of the same process: the handler of the first still writes at its old
    position, after a gap of NUL bytes. *)
Theorem C73_second_solver_refuted : forall buf ls l, length l <= length (concat ls) ->
  content (run (init buf) (Equations 0 false :: map (Output 0) ls ++ [Equations 0 false; Output 0 l])) =
  l ++ repeat nul (length (concat ls) - length l) ++ l.
Proof.
  intros buf ls l H.
  change (Equations 0 false :: map (Output 0) ls ++ [Equations 0 false; Output 0 l])
    with ((Equations 0 false :: map (Output 0) ls) ++ [Equations 0 false; Output 0 l]).
  rewrite run_app. set (s := run (init buf) (Equations 0 false :: map (Output 0) ls)).
  assert (Ho : out s 0 = [Append; At (length (concat ls))]).
  { subst s. unfold LogFile_Model.run. cbn [fold_left].
    apply (position_run ls _ 0). reflexivity. }
  unfold LogFile_Model.run. cbn [fold_left LogFile_Model.step LogFile_Model.out].
  unfold upd at 1. cbn [Nat.eqb]. rewrite Ho. cbn [app LogFile_Model.write_all write LogFile_Model.content].
  assert (X : write_at (length (concat ls)) l l = l ++ repeat nul (length (concat ls) - length l) ++ l).
  { unfold LogFile_Model.write_at, pad. rewrite firstn_all2 by (rewrite app_length, repeat_length; lia).
    rewrite skipn_all2 by (rewrite app_length, repeat_length; lia). rewrite app_nil_r, <- app_assoc. reflexivity. }
  change (upd (out s) 0 [Append; At (length (concat ls)); At 0] 0) with [Append; At (length (concat ls)); At 0].
  cbn [app LogFile_Model.write_all write LogFile_Model.content]. rewrite X. rewrite write_at_inside by lia. cbn [firstn app].
  rewrite skipn_app, skipn_all2 by lia. cbn [app Nat.add]. rewrite Nat.sub_diag. reflexivity.
Qed.

(** ** keep_log = False, any number of ranks *)
Definition outs (r : nat) (es : list event) : bytes :=
  flat_map (fun e => match e with LogFile_Model.Output _ q l => if Nat.eqb q r then l else [] | _ => [] end) es.
Lemma outs_app : forall r a b, outs r (a ++ b) = outs r a ++ outs r b.
Proof. intros. unfold outs. apply flat_map_app. Qed.
Lemma outs_one : forall r q l, outs r [Output q l] = if Nat.eqb q r then l else [].
Proof. intros. unfold outs. cbn. apply app_nil_r. Qed.
Lemma outs_warning : forall r q l, outs r [Warning q l] = [].
Proof. reflexivity. Qed.
Definition no_creation (es : list event) : Prop := forall r k, ~ In (Equations r k) es.

(** the handlers after every rank has created its solver *)
Definition at_positions (n : nat) (p : nat -> nat) (s : state byte) : Prop :=
  (forall r, out s r = (if Nat.eqb r 0 then [Append] else []) ++ (if Nat.ltb r n then [At (p r)] else [])) /\
  (forall r, warn s r = if Nat.eqb r 0 then [Append] else []).

Lemma firstn_eq : forall (a b : bytes) n, n <= length a -> n <= length b ->
  (forall i, i < n -> nth_error a i = nth_error b i) -> firstn n a = firstn n b.
Proof.
  induction a as [|x a IH]; intros b n Ha Hb H; cbn in Ha.
  - assert (n = 0) by lia. subst. reflexivity.
  - destruct n as [|n]; [reflexivity |]. destruct b as [|y b]; cbn in Hb; [lia |].
    pose proof (H 0 ltac:(lia)) as H0. cbn in H0. injection H0 as ->. cbn. f_equal. apply IH; try lia.
    intros i Hi. apply (H (S i)). lia.
Qed.
Lemma firstn_nth : forall (a b : bytes) n i, firstn n a = firstn n b -> i < n -> nth_error a i = nth_error b i.
Proof.
  induction a as [|x a IH]; intros b n i H Hi; destruct n as [|n]; try lia.
  - cbn in H. destruct b; [reflexivity | discriminate].
  - destruct b as [|y b]; cbn in H; [discriminate |]. injection H as -> H. destruct i as [|i]; [reflexivity |].
    cbn. apply (IH b n). exact H. lia.
Qed.
Lemma nth_pad : forall off c i, i < length c -> nth_error (pad byte nul off c) i = nth_error c i.
Proof. intros. unfold pad. apply nth_error_app1. exact H. Qed.
Lemma length_pad : forall off c, length (pad byte nul off c) = Nat.max off (length c).
Proof. intros. unfold pad. rewrite app_length, repeat_length. lia. Qed.
Lemma length_write_at : forall off l c, length (write_at off l c) = Nat.max (off + length l) (length c).
Proof.
  intros. unfold LogFile_Model.write_at. cbv zeta. rewrite !app_length, firstn_length, skipn_length, length_pad. lia.
Qed.
Lemma nth_firstn_lt : forall (n i : nat) (c : bytes), i < n -> nth_error (firstn n c) i = nth_error c i.
Proof.
  induction n as [|n IH]; intros i c H; [lia |]. destruct c as [|x c]; [reflexivity |]. destruct i as [|i]; [reflexivity |].
  cbn. apply IH. lia.
Qed.
Lemma nth_skipn_ge : forall (n i : nat) (c : bytes), nth_error (skipn n c) i = nth_error c (n + i).
Proof. induction n as [|n IH]; intros i c; [reflexivity |]. destruct c as [|x c]; [destruct i; reflexivity |]. cbn. apply IH. Qed.
Lemma nth_write_at : forall off l c i, i < length c \/ off <= i < off + length l ->
  nth_error (write_at off l c) i =
  if Nat.leb off i && Nat.ltb i (off + length l) then nth_error l (i - off) else nth_error c i.
Proof.
  intros off l c i H. unfold LogFile_Model.write_at. cbv zeta.
  assert (F : length (firstn off (pad byte nul off c)) = off) by (rewrite firstn_length, length_pad; lia).
  destruct (Nat.leb off i) eqn:E1; cbn [andb].
  - apply Nat.leb_le in E1. rewrite nth_error_app2 by lia. rewrite F.
    destruct (Nat.ltb i (off + length l)) eqn:E2.
    + apply Nat.ltb_lt in E2. apply nth_error_app1. lia.
    + apply Nat.ltb_ge in E2. rewrite nth_error_app2 by lia. rewrite nth_skipn_ge.
      replace (off + length l + (i - off - length l)) with i by lia. apply nth_pad. lia.
  - apply Nat.leb_gt in E1. rewrite nth_error_app1 by lia. rewrite nth_firstn_lt by exact E1. apply nth_pad. lia.
Qed.

(** writing the right bytes leaves a right beginning right *)
Lemma right_write : forall T p off l q c, T = firstn off T ++ l ++ q -> off <= length T ->
  p <= length c -> p <= length T -> firstn p c = firstn p T -> firstn p (write_at off l c) = firstn p T.
Proof.
  intros T p off l q c HT Ho Hc Hp H. apply firstn_eq; [rewrite length_write_at; lia | exact Hp |].
  intros i Hi. rewrite nth_write_at by lia.
  destruct (Nat.leb off i && Nat.ltb i (off + length l)) eqn:E; [| apply (firstn_nth c T p); assumption].
  apply andb_true_iff in E. destruct E as [E1 E2]. apply Nat.leb_le in E1. apply Nat.ltb_lt in E2.
  rewrite HT. rewrite nth_error_app2 by (rewrite firstn_length; lia).
  rewrite firstn_length, Nat.min_l by lia. rewrite nth_error_app1 by lia. reflexivity.
Qed.
Lemma right_own : forall T off l q c, T = firstn off T ++ l ++ q -> off <= length T ->
  off <= length c -> firstn off c = firstn off T -> firstn (off + length l) (write_at off l c) = firstn (off + length l) T.
Proof.
  intros T off l q c HT Ho Hc H.
  assert (LT : off + length l <= length T) by (rewrite HT, !app_length, firstn_length; lia).
  apply firstn_eq; [rewrite length_write_at; lia | exact LT |].
  intros i Hi. rewrite nth_write_at by lia.
  destruct (Nat.leb off i && Nat.ltb i (off + length l)) eqn:E.
  - apply andb_true_iff in E. destruct E as [E1 E2]. apply Nat.leb_le in E1. apply Nat.ltb_lt in E2.
    rewrite HT. rewrite nth_error_app2 by (rewrite firstn_length; lia).
    rewrite firstn_length, Nat.min_l by lia. rewrite nth_error_app1 by lia. reflexivity.
  - apply andb_false_iff in E. destruct E as [E|E]; [apply Nat.leb_gt in E | apply Nat.ltb_ge in E; lia].
    apply (firstn_nth c T off); [exact H | lia].
Qed.

Lemma ranks_run : forall n T todo dn s, 0 < n -> no_creation todo ->
  (forall r, exists q, T = outs r (dn ++ todo) ++ q) ->
  at_positions n (fun r => length (outs r dn)) s ->
  length (outs 0 dn) <= length (content s) ->
  firstn (length (outs 0 dn)) (content s) = firstn (length (outs 0 dn)) T ->
  firstn (length (outs 0 (dn ++ todo))) (content (run s todo)) = firstn (length (outs 0 (dn ++ todo))) T.
Proof.
  intros n T todo. induction todo as [|e todo IH]; intros dn s Hn N HT [Po Pw] Hc Hf.
  - rewrite app_nil_r. exact Hf.
  - assert (N' : no_creation todo) by (intros r k H; apply (N r k); right; exact H).
    unfold LogFile_Model.run. cbn [fold_left]. change (fold_left step todo (step s e)) with (run (step s e) todo).
    replace (dn ++ e :: todo) with ((dn ++ [e]) ++ todo) in * by (rewrite <- app_assoc; reflexivity).
    assert (LT : forall r, length (outs r dn) <= length T).
    { intros r. destruct (HT r) as [q ->]. rewrite !outs_app, !app_length. lia. }
    apply IH; [exact Hn | exact N' | exact HT | | |].
    + (* positions *)
      destruct e as [r l|r l|r k]; [| | exfalso; apply (N r k); left; reflexivity]; cbn [LogFile_Model.step].
      * rewrite Po. split; [| intros q; destruct (write_all l (content s) _); apply Pw].
        intros q. rewrite outs_app, app_length.
        destruct (write_all l (content s) _) as [c ds] eqn:E. cbn [LogFile_Model.out]. unfold upd.
        destruct (Nat.eqb q r) eqn:Q.
        -- apply Nat.eqb_eq in Q. subst q. rewrite outs_one, Nat.eqb_refl.
           destruct (Nat.eqb r 0), (Nat.ltb r n); cbn in E; injection E as _ <-; reflexivity.
        -- rewrite Po. rewrite outs_one, (Nat.eqb_sym r q), Q. cbn [length]. rewrite Nat.add_0_r. reflexivity.
      * rewrite Pw. split.
        -- intros q. rewrite outs_app, app_length, outs_warning. cbn [length]. rewrite Nat.add_0_r.
           destruct (Nat.eqb r 0); cbn; apply Po.
        -- intros q. destruct (Nat.eqb r 0) eqn:R; cbn; unfold upd; destruct (Nat.eqb q r) eqn:Q; try apply Pw;
             apply Nat.eqb_eq in Q; subst q; rewrite R; reflexivity.
    + (* long enough *)
      destruct e as [r l|r l|r k]; [| | exfalso; apply (N r k); left; reflexivity]; cbn [LogFile_Model.step].
      * rewrite Po, outs_app, app_length, outs_one.
        destruct (Nat.eqb r 0) eqn:R.
        -- apply Nat.eqb_eq in R. subst r. replace (Nat.ltb 0 n) with true by (symmetry; apply Nat.ltb_lt; exact Hn).
           cbn [app LogFile_Model.write_all write LogFile_Model.content]. rewrite length_write_at, !app_length. cbn [length]. lia.
        -- cbn [length]. destruct (Nat.ltb r n); cbn [app LogFile_Model.write_all write LogFile_Model.content]; [rewrite length_write_at |]; lia.
      * rewrite Pw, outs_app, app_length, outs_warning. cbn [length]. destruct (Nat.eqb r 0); cbn; rewrite ?app_length; lia.
    + (* right *)
      destruct e as [r l|r l|r k]; [| | exfalso; apply (N r k); left; reflexivity]; cbn [LogFile_Model.step].
      * destruct (HT r) as [q Hq]. rewrite !outs_app in Hq. rewrite outs_one, Nat.eqb_refl in Hq. rewrite <- !app_assoc in Hq.
        assert (HT' : T = firstn (length (outs r dn)) T ++ l ++ (outs r todo ++ q)).
        { rewrite Hq at 2. rewrite firstn_app, Nat.sub_diag, firstn_all. cbn [firstn]. rewrite app_nil_r. exact Hq. }
        rewrite Po, outs_app, app_length, outs_one.
        destruct (Nat.eqb r 0) eqn:R.
        -- apply Nat.eqb_eq in R. subst r. replace (Nat.ltb 0 n) with true by (symmetry; apply Nat.ltb_lt; exact Hn).
           cbn [app LogFile_Model.write_all write LogFile_Model.content].
           apply (right_own T (length (outs 0 dn)) l _ _ HT' (LT 0)); [rewrite app_length; lia |].
           rewrite firstn_app. replace (length (outs 0 dn) - length (content s)) with 0 by lia. cbn [firstn]. rewrite app_nil_r. exact Hf.
        -- cbn [length]. rewrite Nat.add_0_r.
           destruct (Nat.ltb r n); cbn [app LogFile_Model.write_all write LogFile_Model.content]; [| exact Hf].
           apply (right_write T _ _ l _ _ HT' (LT r) Hc (LT 0) Hf).
      * rewrite Pw, outs_app, app_length, outs_warning. cbn [length]. rewrite Nat.add_0_r.
        destruct (Nat.eqb r 0); cbn; [| exact Hf].
        rewrite firstn_app. replace (length (outs 0 dn) - length (content s)) with 0 by lia. cbn [firstn]. rewrite app_nil_r. exact Hf.
Qed.

Lemma creations_positions : forall rs s (N : nat -> bool), NoDup rs ->
  (forall r, out s r = (if Nat.eqb r 0 then [Append] else []) ++ (if N r then [At 0] else [])) ->
  (forall r, warn s r = if Nat.eqb r 0 then [Append] else []) -> (forall r, In r rs -> N r = false) ->
  let s' := run s (map (fun r => Equations r false) rs) in
  (forall r, out s' r = (if Nat.eqb r 0 then [Append] else []) ++ (if N r || existsb (Nat.eqb r) rs then [At 0] else [])) /\
  (forall r, warn s' r = if Nat.eqb r 0 then [Append] else []) /\ (rs <> [] -> content s' = []).
Proof.
  induction rs as [|r rs IH]; intros s N D Ho Hw Hn; cbv zeta.
  - cbn. split; [intros r; rewrite orb_false_r; apply Ho |]. split; [exact Hw | contradiction].
  - inversion D as [|? ? Hr D']; subst. unfold LogFile_Model.run. cbn [map fold_left LogFile_Model.step].
    set (s1 := mkSt byte [] (upd (out s) r (out s r ++ [At 0])) (warn s)).
    destruct (IH s1 (fun q => N q || Nat.eqb q r) D') as [A [B C]].
    + intros q. subst s1. cbn [LogFile_Model.out]. unfold upd. destruct (Nat.eqb q r) eqn:Q; [| rewrite orb_false_r; apply Ho].
      apply Nat.eqb_eq in Q. subst q. rewrite Ho, (Hn r (or_introl eq_refl)), <- app_assoc. reflexivity.
    + exact Hw.
    + intros q Hq. rewrite (Hn q (or_intror Hq)). cbn. apply Nat.eqb_neq. intros ->. contradiction.
    + split; [| split; [exact B |]].
      * intros q. cbn [existsb]. rewrite orb_assoc. apply A.
      * intros _. destruct rs as [|r2 rs]; [reflexivity | apply C; discriminate].
Qed.
Lemma existsb_seq : forall r n, existsb (Nat.eqb r) (seq 0 n) = Nat.ltb r n.
Proof.
  intros r n. destruct (Nat.ltb r n) eqn:E.
  - apply Nat.ltb_lt in E. apply existsb_exists. exists r. split; [apply in_seq; lia | apply Nat.eqb_refl].
  - apply Nat.ltb_ge in E. destruct (existsb (Nat.eqb r) (seq 0 n)) eqn:X; [| reflexivity].
    apply existsb_exists in X. destruct X as [x [H1 H2]]. apply Nat.eqb_eq in H2. subst. apply in_seq in H1. lia.
Qed.

(** n ranks create their solvers, then log in any interleaving, warnings included, every
    rank a beginning of the same output lines: the file begins with the whole output of
    rank 0. *)
Theorem C73_output_of_ranks : forall n buf es, 0 < n -> no_creation es ->
  (forall r, exists q, outs 0 es = outs r es ++ q) ->
  exists tail, content (run (init buf) (map (fun r => Equations r false) (seq 0 n) ++ es)) = outs 0 es ++ tail.
Proof.
  intros n buf es Hn N HT. rewrite run_app.
  set (s := run (init buf) (map (fun r => Equations r false) (seq 0 n))).
  destruct (creations_positions (seq 0 n) (init buf) (fun _ => false) (seq_NoDup n 0)) as [A [B C]].
  { intros r. cbn. destruct (Nat.eqb r 0); reflexivity. }
  { intros r. reflexivity. }
  { intros r _. reflexivity. }
  fold s in A, B, C.
  assert (P : at_positions n (fun r => length (outs r [])) s).
  { split; [| exact B]. intros r. rewrite A, existsb_seq. reflexivity. }
  assert (R := ranks_run n (outs 0 es) es [] s Hn N HT P ltac:(cbn; lia) eq_refl).
  cbn [app] in R. rewrite firstn_all in R.
  exists (skipn (length (outs 0 es)) (content (run s es))).
  transitivity (firstn (length (outs 0 es)) (content (run s es)) ++ skipn (length (outs 0 es)) (content (run s es))).
  - symmetry. apply firstn_skipn.
  - rewrite R. reflexivity.
Qed.

(** A rank that is late with its solver empties the file: what the others had written is
    lost. *)
Theorem C73_late_rank_refuted : forall buf ls r, 0 < r ->
  content (run (init buf) (Equations 0 false :: map (Output 0) ls)) = concat ls /\
  content (run (init buf) (Equations 0 false :: map (Output 0) ls ++ [Equations r false])) = [].
Proof.
  intros buf ls r Hr. split; [apply (C73_output_only buf [] ls); intros e [] |].
  change (Equations 0 false :: map (Output 0) ls ++ [Equations r false]) with ((Equations 0 false :: map (Output 0) ls) ++ [Equations r false]).
  rewrite run_app. reflexivity.
Qed.
End P.

(** bytes are numbers, NUL is 0 *)
Example C73_overwrite_example :
  content nat (run nat 0 (init nat [9; 9; 9])
    [Output nat 0 [8]; Equations nat 0 false; Output nat 0 [1; 1]; Warning nat 0 [5; 5; 5]; Output nat 0 [2]; Output nat 0 [3; 3]])
  = [1; 1; 2; 3; 3; 2; 3; 3].
Proof. reflexivity. Qed.
Example C73_keep_log_example :
  content nat (run nat 0 (init nat [9]) [Equations nat 0 true; Output nat 0 [1; 2]; Warning nat 0 [5]; Output nat 0 [3]])
  = [9; 1; 2; 1; 2; 5; 3; 3].
Proof. reflexivity. Qed.
Example C73_second_solver_example :
  content nat (run nat 0 (init nat []) [Equations nat 0 false; Output nat 0 [1; 2; 3]; Equations nat 0 false; Output nat 0 [7]])
  = [7; 0; 0; 7].
Proof. reflexivity. Qed.
Example C73_ranks_example :
  let es := [Output nat 1 [4; 4]; Output nat 0 [4; 4]; Warning nat 0 [5]; Output nat 0 [6]; Output nat 1 [6]] in
  content nat (run nat 0 (init nat []) (map (fun r => Equations nat r false) (seq 0 2) ++ es)) = [4; 4; 6; 4; 5; 6]
  /\ outs nat 0 es = [4; 4; 6] /\ outs nat 1 es = [4; 4; 6].
Proof. repeat split. Qed.

Print Assumptions C73_keep_log.
Print Assumptions C73_overwrite.
Print Assumptions C73_output_of_ranks.
