(** C46: log directory handling. *)
From Coq Require Import List String Bool Arith Lia.
From Verif Require Import Log_Model.
Import ListNotations.
Open Scope string_scope.
Open Scope list_scope.

Lemma fs_get_set : forall f p c q, fs_get (fs_set f p c) q = if String.eqb q p then Some c else fs_get f q.
Proof.
  induction f as [|(a, d) f IH]; intros p c q; cbn.
  - destruct (String.eqb_spec q p); reflexivity.
  - destruct (String.eqb_spec p a) as [->|N]; cbn.
    + destruct (String.eqb_spec q a); reflexivity.
    + rewrite IH. destruct (String.eqb_spec q a) as [->|]; [|reflexivity].
      destruct (String.eqb_spec a p); [subst; contradiction|reflexivity].
Qed.
Lemma fs_get_del : forall f p q, fs_get (fs_del f p) q = if String.eqb q p then None else fs_get f q.
Proof.
  induction f as [|(a, d) f IH]; intros p q; cbn.
  - destruct (String.eqb_spec q p); reflexivity.
  - destruct (String.eqb_spec p a) as [->|N]; cbn; rewrite IH.
    + destruct (String.eqb_spec q a); reflexivity.
    + destruct (String.eqb_spec q a) as [->|]; [|reflexivity].
      destruct (String.eqb_spec a p); [subst; contradiction|reflexivity].
Qed.

(** ** Specification.  [pre]: the messages before the first log directory; [cur]: the
    current log file; [cont]: what each log file holds; [err]: the terminal. *)
Record spec := mkSp { pre : list string; cur : option string; cont : string -> option (list string); err : list string }.
Definition upd (c : string -> option (list string)) (p : string) (v : list string) : string -> option (list string) :=
  fun q => if String.eqb q p then Some v else c q.
Definition spec_line (s : spec) (l : string) : spec :=
  match cur s with
  | None => mkSp (pre s ++ [l]) None (cont s) (err s ++ [l])
  | Some p => mkSp (pre s) (Some p) (upd (cont s) p (match cont s p with Some c => c ++ [l] | None => [l] end)) (err s ++ [l])
  end.
Definition spec_step (s : spec) (o : op) : spec :=
  match o with
  | Log n lv m => spec_line s (fmt n lv m)
  | SetDir d _ =>
    match cur s with
    | Some p => if String.eqb p (logfile d) then s
                else spec_line (mkSp (pre s) (Some (logfile d)) (upd (cont s) (logfile d) (pre s)) (err s))
                               (fmt Thetis "WARNING" (switch_message (logfile d) p))
    | None => mkSp (pre s) (Some (logfile d)) (upd (cont s) (logfile d) (pre s)) (err s)
    end
  end.
Definition spec_start (f : fs) : spec := mkSp [] None (fs_get f) [].

Definition hs_of (c : option string) : list handler :=
  match c with None => [Stream; Buffer] | Some p => [Stream; File p] end.
Definition agrees (s : state) (sp : spec) : Prop :=
  h_thetis s = hs_of (cur sp) /\ h_output s = hs_of (cur sp) /\ conf_filename s = cur sp
  /\ mem_buffer s = pre sp /\ stderr s = err sp /\ forall q, fs_get (files s) q = cont sp q.

Lemma log_agrees : forall s sp n l m, agrees s sp -> agrees (log_msg s n l m) (spec_line sp (fmt n l m))
  /\ notdirs (log_msg s n l m) = notdirs s.
Proof.
  intros s sp n l m (H1 & H2 & H3 & H4 & H5 & H6). unfold log_msg, handlers, spec_line.
  assert (E : (match n with Thetis => h_thetis s | ThetisOutput => h_output s end) = hs_of (cur sp)) by (destruct n; assumption).
  rewrite E. set (line := fmt n l m). clearbody line.
  destruct (cur sp) as [p|] eqn:C; cbn [hs_of fold_left emit]; unfold agrees; cbn; rewrite H1, H2, ?H3, ?H4, ?H5, ?C.
  - split; [|reflexivity]. repeat split. intro q. unfold fs_append. rewrite fs_get_set. unfold upd. rewrite H6, H6. reflexivity.
  - split; [|reflexivity]. repeat split. exact H6.
Qed.
Lemma step_agrees : forall s sp o, agrees s sp -> notdirs s = [] ->
  agrees (step s o) (spec_step sp o) /\ notdirs (step s o) = [].
Proof.
  intros s sp [n l m|d w] HA Hn.
  - cbn [step spec_step]. destruct (log_agrees s sp n l m HA) as (A & B). split; [exact A|congruence].
  - destruct HA as (H1 & H2 & H3 & H4 & H5 & H6). cbn [step spec_step]. unfold set_log_directory. rewrite H3.
    destruct (cur sp) as [p|] eqn:C.
    + destruct (String.eqb p (logfile d)) eqn:E; [split; [repeat split; rewrite ?C; assumption|exact Hn]|].
      set (lf := logfile d) in *. clearbody lf.
      cbn [rm_handlers set_handlers files notdirs mem_buffer stderr h_thetis h_output conf_filename].
      rewrite Hn. cbn [existsb fst]. rewrite H1, H2. cbn [hs_of List.length].
      cbn -[log_msg spec_line fs_set fs_del switch_message].
      match goal with |- agrees (log_msg ?S _ _ _) (spec_line ?SP _) /\ _ =>
        assert (AG : agrees S SP); [|destruct (log_agrees S SP Thetis "WARNING" (switch_message lf p) AG) as (A & B)] end.
      { unfold agrees. cbn -[fs_set fs_del]. rewrite ?H4, ?H5. repeat split. intro q. rewrite fs_get_set. unfold upd.
        destruct (String.eqb q lf) eqn:Q; [reflexivity|]. destruct w; [|apply H6].
        rewrite fs_get_del, Q. apply H6. }
      split; [exact A|]. rewrite B. reflexivity.
    + set (lf := logfile d) in *. clearbody lf.
      cbn [rm_handlers set_handlers files notdirs mem_buffer stderr h_thetis h_output conf_filename].
      rewrite Hn. cbn [existsb fst]. rewrite H1, H2. cbn [hs_of List.length].
      cbn -[log_msg spec_line fs_set fs_del]. split; [|reflexivity].
      unfold agrees. cbn -[fs_set fs_del]. rewrite ?H4, ?H5. repeat split. intro q. rewrite fs_get_set. unfold upd.
      destruct (String.eqb q lf) eqn:Q; [reflexivity|]. destruct w; [|apply H6].
      rewrite fs_get_del, Q. apply H6.
Qed.
(** For every history of messages and log directories after the import, the terminal and
    all log files hold what the specification says (all given paths being usable as
    directories). *)
Theorem C46_log_files : forall f ops,
  let s := run (start f []) ops in
  let sp := fold_left spec_step ops (spec_start f) in
  stderr s = err sp /\ forall p, fs_get (files s) p = cont sp p.
Proof.
  intros f ops s sp.
  assert (G : forall ops s0 sp0, agrees s0 sp0 -> notdirs s0 = [] ->
    agrees (fold_left step ops s0) (fold_left spec_step ops sp0)).
  { induction ops0 as [|o l IH]; intros s0 sp0 HA Hn; [exact HA|]. cbn [fold_left].
    destruct (step_agrees s0 sp0 o HA Hn) as (A & B). apply IH; assumption. }
  assert (A : agrees s sp).
  { apply G; [|reflexivity]. unfold agrees, start. cbn. repeat split. }
  destruct A as (_ & _ & _ & _ & A5 & A6). split; assumption.
Qed.

(** messages of a list of log operations *)
Definition line_of (o : op) : list string := match o with Log n l m => [fmt n l m] | SetDir _ _ => [] end.
Definition only_logs (ops : list op) : Prop := Forall (fun o => match o with Log _ _ _ => True | _ => False end) ops.
Lemma spec_logs : forall ops sp, only_logs ops ->
  let l := List.concat (map line_of ops) in
  let sp' := fold_left spec_step ops sp in
  err sp' = err sp ++ l /\ cur sp' = cur sp /\
  match cur sp with
  | None => pre sp' = pre sp ++ l /\ (forall q, cont sp' q = cont sp q)
  | Some p => pre sp' = pre sp /\ (forall c, cont sp p = Some c -> cont sp' p = Some (c ++ l))
              /\ (forall q, q <> p -> cont sp' q = cont sp q)
  end.
Proof.
  induction ops as [|o ops IH]; intros sp HF; cbn [map List.concat fold_left].
  - rewrite !app_nil_r. split; [reflexivity|]. split; [reflexivity|].
    destruct (cur sp); [|split; reflexivity]. split; [reflexivity|]. split; [|reflexivity].
    intros c E. rewrite app_nil_r. exact E.
  - inversion HF as [|? ? Ho HF' E]; subst. destruct o as [n l m|]; [|contradiction].
    cbn [line_of spec_step]. set (ln := fmt n l m). clearbody ln. cbv zeta.
    specialize (IH (spec_line sp ln) HF'). cbv zeta in IH. destruct IH as (I1 & I2 & I3).
    unfold spec_line in *. destruct (cur sp) as [p|] eqn:C; cbn [err cur pre cont] in *.
    + rewrite I1, I2. rewrite <- app_assoc. split; [reflexivity|]. split; [reflexivity|].
      destruct I3 as (I3 & I4 & I5). split; [exact I3|]. split.
      * intros c Ec. rewrite Ec in *. rewrite (I4 (c ++ [ln])).
        -- rewrite <- app_assoc. reflexivity.
        -- unfold upd. rewrite String.eqb_refl. reflexivity.
      * intros q Hq. rewrite I5 by exact Hq. unfold upd. destruct (String.eqb_spec q p); [contradiction|reflexivity].
    + rewrite I1, I2. rewrite <- app_assoc. split; [reflexivity|]. split; [reflexivity|].
      destruct I3 as (I3 & I4). split; [rewrite I3, <- app_assoc; reflexivity|exact I4].
Qed.
(** one log directory: it ends up with every message of the run exactly once, in order,
    those issued before the directory was known included *)
Theorem C46_single_directory : forall f ops1 ops2 d w, only_logs ops1 -> only_logs ops2 ->
  let s := run (start f []) (ops1 ++ SetDir d w :: ops2) in
  fs_get (files s) (logfile d) = Some (List.concat (map line_of (ops1 ++ ops2)))
  /\ stderr s = List.concat (map line_of (ops1 ++ ops2))
  /\ forall q, q <> logfile d -> fs_get (files s) q = fs_get f q.
Proof.
  intros f ops1 ops2 d w H1 H2 s.
  destruct (C46_log_files f (ops1 ++ SetDir d w :: ops2)) as (A & B). fold s in A, B.
  rewrite fold_left_app in A, B. cbn [fold_left] in A, B.
  destruct (spec_logs ops1 (spec_start f) H1) as (E1 & E2 & E3 & E4). cbn [spec_start cur pre err cont app] in E1, E2, E3, E4.
  set (sp1 := fold_left spec_step ops1 (spec_start f)) in *.
  cbn [spec_step] in A, B. rewrite E2 in A, B.
  set (sp2 := mkSp (pre sp1) (Some (logfile d)) (upd (cont sp1) (logfile d) (pre sp1)) (err sp1)) in *.
  destruct (spec_logs ops2 sp2 H2) as (F1 & F2 & F3 & F4 & F5). cbn [sp2 cur pre err cont] in F1, F2, F3, F4, F5.
  rewrite map_app, concat_app. split; [|split].
  - rewrite B, (F4 (pre sp1)); [rewrite E3; reflexivity|]. unfold upd. rewrite String.eqb_refl. reflexivity.
  - rewrite A, F1, E1. reflexivity.
  - intros q Hq. rewrite B, F5 by exact Hq. unfold upd. destruct (String.eqb_spec q (logfile d)); [contradiction|]. apply E4.
Qed.
(** a second directory gets the early messages, a warning, and everything that follows;
    the first keeps what it had *)
Theorem C46_second_directory : forall f ops1 ops2 ops3 d d' w w',
  only_logs ops1 -> only_logs ops2 -> only_logs ops3 -> logfile d <> logfile d' ->
  let s := run (start f []) (ops1 ++ SetDir d w :: ops2 ++ SetDir d' w' :: ops3) in
  fs_get (files s) (logfile d) = Some (List.concat (map line_of (ops1 ++ ops2)))
  /\ fs_get (files s) (logfile d')
     = Some (List.concat (map line_of ops1) ++ [fmt Thetis "WARNING" (switch_message (logfile d') (logfile d))]
             ++ List.concat (map line_of ops3)).
Proof.
  intros f ops1 ops2 ops3 d d' w w' H1 H2 H3 Hne s.
  destruct (C46_log_files f (ops1 ++ SetDir d w :: ops2 ++ SetDir d' w' :: ops3)) as (_ & B). fold s in B.
  rewrite fold_left_app in B. cbn [fold_left] in B. rewrite fold_left_app in B. cbn [fold_left] in B.
  destruct (spec_logs ops1 (spec_start f) H1) as (E1 & E2 & E3 & E4). cbn [spec_start cur pre err cont app] in E1, E2, E3, E4.
  set (sp1 := fold_left spec_step ops1 (spec_start f)) in *.
  cbn [spec_step] in B. rewrite E2 in B.
  set (sp2 := mkSp (pre sp1) (Some (logfile d)) (upd (cont sp1) (logfile d) (pre sp1)) (err sp1)) in *.
  destruct (spec_logs ops2 sp2 H2) as (F1 & F2 & F3 & F4 & F5). cbn [sp2 cur pre err cont] in F1, F2, F3, F4, F5.
  set (sp3 := fold_left spec_step ops2 sp2) in *.
  rewrite F2 in B. destruct (String.eqb_spec (logfile d) (logfile d')) as [C|_]; [contradiction|].
  set (wl := fmt Thetis "WARNING" (switch_message (logfile d') (logfile d))) in *. clearbody wl.
  unfold spec_line in B. cbn [cur pre cont err] in B.
  set (sp4 := mkSp (pre sp3) (Some (logfile d')) _ _) in B.
  destruct (spec_logs ops3 sp4 H3) as (G1 & G2 & G3 & G4 & G5). cbn [sp4 cur pre err cont] in G1, G2, G3, G4, G5.
  split.
  - rewrite B, G5 by exact Hne. unfold upd at 1. destruct (String.eqb_spec (logfile d) (logfile d')); [contradiction|].
    unfold upd at 1. destruct (String.eqb_spec (logfile d) (logfile d')); [contradiction|].
    rewrite (F4 (pre sp1)); [rewrite E3, map_app, concat_app; reflexivity|]. unfold upd. rewrite String.eqb_refl. reflexivity.
  - rewrite B. unfold upd at 2 3 in G4. rewrite String.eqb_refl in G4. unfold upd at 1 in G4. rewrite String.eqb_refl in G4.
    rewrite (G4 (pre sp3 ++ [wl]) eq_refl). rewrite F3, E3, <- app_assoc. reflexivity.
Qed.
(** setting the same directory again changes nothing, whatever the mode *)
Theorem C46_same_directory_idempotent : forall s d w w', snd (set_log_directory d w s) = false ->
  set_log_directory d w' (fst (set_log_directory d w s)) = (fst (set_log_directory d w s), false).
Proof.
  intros s d w w' H.
  assert (EMIT : forall l hs s0, conf_filename (fold_left (emit l) hs s0) = conf_filename s0).
  { induction hs as [|h hs IH]; intro s0; [reflexivity|]. cbn [fold_left]. rewrite IH. destruct h; reflexivity. }
  assert (PICK : forall (b : bool) (S X : state) c, conf_filename X = c ->
    snd (if b then (S, true) else (X, false)) = false -> conf_filename (fst (if b then (S, true) else (X, false))) = c).
  { intros [] S X c HX HS; [discriminate|exact HX]. }
  assert (ADD : forall h S, conf_filename (add_handler h S) = conf_filename S) by reflexivity.
  assert (C : conf_filename (fst (set_log_directory d w s)) = Some (logfile d)).
  { unfold set_log_directory in *. destruct (conf_filename s) as [f|] eqn:E.
    - destruct (String.eqb_spec f (logfile d)) as [->|N]; [exact E|].
      cbv zeta in H |- *. apply PICK; [unfold log_msg; rewrite EMIT, ADD; reflexivity|exact H].
    - cbv zeta in H |- *. apply PICK; [rewrite ADD; reflexivity|exact H]. }
  unfold set_log_directory at 1. rewrite C, String.eqb_refl. reflexivity.
Qed.
(** the append mode removes what an earlier run has written *)
Theorem C46_append_keeps_refuted : exists f d old, fs_get f (logfile d) = Some old /\ old <> [] /\
  fs_get (files (run (start f []) [SetDir d false])) (logfile d) = Some [].
Proof.
  exists [("out/log", ["earlier"])], "out", ["earlier"]. split; [reflexivity|]. split; [discriminate|]. reflexivity.
Qed.
(** in general the mode makes no difference at all *)
Theorem C46_mode_has_no_effect : forall f ops ops',
  Forall2 (fun o o' => match o, o' with
                       | Log n l m, Log n' l' m' => n = n' /\ l = l' /\ m = m'
                       | SetDir d _, SetDir d' _ => d = d'
                       | _, _ => False end) ops ops' ->
  forall p, fs_get (files (run (start f []) ops)) p = fs_get (files (run (start f []) ops')) p.
Proof.
  intros f ops ops' HF p.
  destruct (C46_log_files f ops) as (_ & A). destruct (C46_log_files f ops') as (_ & B). rewrite A, B.
  assert (E : forall sp, fold_left spec_step ops sp = fold_left spec_step ops' sp); [|rewrite E; reflexivity].
  clear A B. induction HF as [|o o' l l' Ho HF IH]; intro sp; [reflexivity|]. cbn [fold_left].
  assert (spec_step sp o = spec_step sp o').
  { destruct o, o'; try contradiction; cbn in Ho.
    - destruct Ho as (-> & -> & ->). reflexivity.
    - subst. reflexivity. }
  rewrite H. apply IH.
Qed.
(** initialising the loggers again leaves a buffer handler behind, so that messages appear
    twice in the log *)
Theorem C46_reinitialise_refuted : exists m,
  let s := log_msg (set_loggers (start [] [])) ThetisOutput "INFO" m in
  fs_get (files (fst (set_log_directory "out" true s))) (logfile "out") = Some [m; m].
Proof. exists "hello". reflexivity. Qed.
(** a directory name that cannot be used stops logging to the previous file, and setting
    the previous directory again does not bring it back *)
Theorem C46_failed_switch_silences_refuted : exists m,
  let s := fst (set_log_directory "out" true (start [] ["bad"])) in
  let r := set_log_directory "bad" true s in
  let s' := fst (set_log_directory "out" true (fst r)) in
  snd r = true /\ fs_get (files (log_msg s' ThetisOutput "INFO" m)) (logfile "out") = Some [].
Proof. exists "hello". split; reflexivity. Qed.

Example C46_example :
  fs_get (files (run (start [("out/log", ["old"])] [])
     [Log ThetisOutput "" "a"; SetDir "out" true; Log Thetis "WARNING" "b"])) "out/log"
  = Some ["a"; "thetis:WARNING b"].
Proof. reflexivity. Qed.

Print Assumptions C46_log_files.
Print Assumptions C46_single_directory.
Print Assumptions C46_second_directory.
Print Assumptions C46_mode_has_no_effect.
