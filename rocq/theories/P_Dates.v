(** C81: dates across restarts. *)
From Coq Require Import String.
From Verif Require Import Num Dates_Model.
Open Scope string_scope.

Lemma put_same : forall d dir i a, put d dir i a (dir, i) = Some a.
Proof. intros. unfold put. cbn [fst snd]. rewrite String.eqb_refl, Z.eqb_refl. reflexivity. Qed.

Lemma put_in : forall d dir i a k x, put d dir i a k = Some x -> x = a \/ d k = Some x.
Proof.
  intros d dir i a k x. unfold put.
  destruct (andb _ _); intro H; [left; injection H as <-; reflexivity|right; exact H].
Qed.

(** A restart which takes the time of the file takes its date too: the clock
    is that of the file, whatever date the user had set. *)
Theorem C81_restart_clock : forall m dir i a s d s' d',
  d (dir, i) = Some a -> at_date a <> None ->
  step (LoadState m dir i None) s d = inl (s', d') -> clock s' = file_clock a.
Proof.
  intros m dir i a s d s' d' Ha Hn H. cbn [step] in H. unfold load_state in H. cbv zeta in H.
  rewrite Ha in H. destruct (at_date a) as [x|] eqn:Ex; [|contradiction (Hn eq_refl)].
  injection H as <- <-. unfold clock, file_clock. rewrite Ex.
  destruct m; reflexivity.
Qed.

(** Without a date in the file the user's date stays. *)
Theorem C81_undated_file : forall m dir i t a s d s' d',
  d (dir, i) = Some a -> at_date a = None ->
  step (LoadState m dir i t) s d = inl (s', d') -> opt_date s' = opt_date s.
Proof.
  intros m dir i t a s d s' d' Ha Hn H. cbn [step] in H. unfold load_state in H. cbv zeta in H.
  rewrite Ha, Hn in H. injection H as <- <-. cbn [opt_date]. unfold initialize.
  destruct (exp_date s); reflexivity.
Qed.

(** A caller who gives the time keeps their date in the 2D solver. *)
Theorem C81_override_2d : forall dir i t s d s' d',
  step (LoadState Two dir i (Some t)) s d = inl (s', d') ->
  opt_date s' = opt_date s /\ sim_t s' = Some t.
Proof.
  intros dir i t s d s' d' H. cbn [step] in H. unfold load_state in H. cbv zeta in H.
  destruct (d (dir, i)) as [a|]; [|discriminate H].
  injection H as <- <-. cbn [opt_date sim_t]. split; [|reflexivity].
  destruct (at_date a); unfold initialize; destruct (exp_date s); reflexivity.
Qed.

(** Refuted for the 3D solver: the documented way of continuing from a spin-up
    run with the counters reset, [load_state(40, outputdir='spinup',
    iteration=0, t=0, i_export=0)], replaces the date of the new run by that of
    the spin-up. *)
Theorem C81_override_3d_refuted : forall dir i t s d a x,
  d (dir, i) = Some a -> at_date a = Some x -> opt_date s <> Some x ->
  exists s' d', step (LoadState Three dir i (Some t)) s d = inl (s', d') /\
    opt_date s' = Some x /\ opt_date s' <> opt_date s.
Proof.
  intros dir i t s d a x Ha Hx Hd. cbn [step]. unfold load_state. cbv zeta. rewrite Ha, Hx.
  eexists _, _. split; [reflexivity|]. cbn [opt_date]. split; [reflexivity|].
  intro E. apply Hd. symmetry. exact E.
Qed.

(* ------------------------------------------------------------------ *)
(** * The same date in every run *)

Definition uses (D : Qc) (o : op) : Prop :=
  match o with SetDate d => d = Some D | _ => True end.

(** what all runs have in common *)
Definition dated (D : Qc) (d : store) : Prop := forall k a, d k = Some a -> at_date a = Some D.
Definition sdated (D : Qc) (s : solver) : Prop :=
  opt_date s = Some D /\ (forall x, exp_date s = Some x -> x = Some D) /\
  (forall c, In c (cbs s) -> cb_units c = Some D).

Lemma init_dated : forall D s, sdated D s -> sdated D (initialize s).
Proof.
  intros D s (H1 & H2 & H3). unfold initialize. destruct (exp_date s) as [x|] eqn:E.
  - split; [exact H1|]. split; [|exact H3]. intros y Hy. apply H2. rewrite E in Hy. exact Hy.
  - split; [exact H1|]. split; [|exact H3]. intros y Hy. cbn in Hy. injection Hy as <-. exact H1.
Qed.

Lemma step_dated : forall D o s d s' d', uses D o -> sdated D s -> dated D d ->
  step o s d = inl (s', d') -> sdated D s' /\ dated D d'.
Proof.
  intros D o s d s' d' Hu Hs Hd H. destruct o as [x| | |t|i| |m dir i t]; cbn [step] in H.
  - cbn in Hu. subst x. injection H as <- <-. destruct Hs as (H1 & H2 & H3).
    split; [|exact Hd]. split; [reflexivity|]. split; assumption.
  - injection H as <- <-. split; [apply init_dated; exact Hs|exact Hd].
  - injection H as <- <-. destruct Hs as (H1 & H2 & H3). split; [|exact Hd].
    split; [exact H1|]. split; [exact H2|]. intros c Hc. cbn [cbs] in Hc. apply in_app_or in Hc.
    destruct Hc as [Hc|[<-|[]]]; [apply H3; exact Hc|exact H1].
  - injection H as <- <-. destruct Hs as (H1 & H2 & H3). split; [|exact Hd]. split; [exact H1|]. split; assumption.
  - unfold export in H. pose proof (init_dated D s Hs) as Hi. set (s0 := initialize s) in *.
    destruct (sim_t s0) as [t|] eqn:Et; [|discriminate H]. injection H as <- <-.
    split; [exact Hi|]. intros k a Hk. apply put_in in Hk. destruct Hk as [Hk|Hk]; [|apply (Hd k); exact Hk].
    subst a. cbn [at_date]. assert (exists x, exp_date s0 = Some x) as (x & Ex).
    { unfold s0, initialize. destruct (exp_date s) as [y|] eqn:Ey; [exists y; exact Ey|eexists; reflexivity]. }
    rewrite Ex. destruct Hi as (_ & H2 & _). apply H2. exact Ex.
  - destruct (sim_t s) as [t|]; [|discriminate H]. injection H as <- <-. destruct Hs as (H1 & H2 & H3).
    split; [|exact Hd]. split; [exact H1|]. split; [exact H2|]. intros c Hc. cbn [cbs] in Hc.
    apply in_map_iff in Hc. destruct Hc as (c0 & <- & Hc). cbn [cb_units]. apply H3. exact Hc.
  - unfold load_state in H. cbv zeta in H. destruct (d (dir, i)) as [a|] eqn:Ea; [|discriminate H].
    pose proof (init_dated D s Hs) as (H1 & H2 & H3). injection H as <- <-. split; [|exact Hd].
    split; [|split; assumption]. cbn [opt_date]. rewrite (Hd _ _ Ea).
    destruct m, t; (reflexivity || exact H1).
Qed.

Lemma run_dated : forall D ops s d s' d', Forall (uses D) ops -> sdated D s -> dated D d ->
  run ops s d = inl (s', d') -> sdated D s' /\ dated D d'.
Proof.
  intros D ops. induction ops as [|o r IH]; intros s d s' d' Hf Hs Hd H; cbn [run] in H.
  - injection H as <- <-. split; assumption.
  - inversion Hf as [|? ? Ho Hr]; subst. destruct (step o s d) as [[s1 d1]|e] eqn:E; [|discriminate H].
    destruct (step_dated D o s d s1 d1 Ho Hs Hd E) as (A & C). apply (IH s1 d1 s' d'); assumption.
Qed.

Lemma session_dated : forall D dir ops d s' d', Forall (uses D) ops -> dated D d ->
  session dir (SetDate (Some D) :: ops) d = inl (s', d') -> sdated D s' /\ dated D d'.
Proof.
  intros D dir ops d s' d' Hf Hd H. unfold session in H. cbn [run step] in H.
  refine (run_dated D ops _ d s' d' Hf _ Hd H). unfold new_solver. cbn.
  split; [reflexivity|]. split; [intros x Hx; discriminate Hx|intros c []].
Qed.

(** If every program run sets the same date before anything else, then after any
    chain of runs and restarts, in any directories, 2D or 3D, with the time
    overridden or not, every stored file carries that date, so do the time axes
    of all diagnostic files, and the clock is that date plus the simulation
    time. *)
Theorem C81_same_date_everywhere : forall D (l : list (string * list op)) dir ops d1 s d',
  Forall (fun x => exists ops', snd x = SetDate (Some D) :: ops' /\ Forall (uses D) ops') l ->
  Forall (uses D) ops ->
  sessions l (fun _ => None) = inl d1 ->
  session dir (SetDate (Some D) :: ops) d1 = inl (s, d') ->
  (forall k a, d' k = Some a -> at_date a = Some D) /\
  (forall c, In c (cbs s) -> cb_units c = Some D) /\
  (forall t, sim_t s = Some t -> clock s = Some (D + t)%Qc).
Proof.
  intros D l dir ops d1 s d' Hl Ho H1 H2.
  assert (G : forall l d, Forall (fun x => exists ops', snd x = SetDate (Some D) :: ops' /\ Forall (uses D) ops') l ->
            dated D d -> forall d1, sessions l d = inl d1 -> dated D d1).
  { clear. induction l as [|[dir ops] r IH]; intros d Hf Hd d1 H; cbn [sessions] in H.
    - injection H as <-. exact Hd.
    - inversion Hf as [|? ? Hx Hr]; subst. destruct Hx as (ops' & E & Hu). cbn [snd] in E. subst ops.
      destruct (session dir (SetDate (Some D) :: ops') d) as [[s1 d2]|e] eqn:Es; [|discriminate H].
      destruct (session_dated D dir ops' d s1 d2 Hu Hd Es) as (_ & Hd2).
      apply (IH d2 Hr Hd2 d1 H). }
  assert (Hd1 : dated D d1).
  { apply (G l (fun _ => None) Hl); [|exact H1]. intros k a Hk. discriminate Hk. }
  destruct (session_dated D dir ops d1 s d' Ho Hd1 H2) as ((A & _ & C) & Hd).
  split; [exact Hd|]. split; [exact C|]. intros t Ht. unfold clock. rewrite A, Ht. reflexivity.
Qed.

(** Under the same conditions the file an export writes stands for the date and
    time the solver shows, and a restart from it shows them again. *)
Theorem C81_export_clock : forall D (l : list (string * list op)) dir ops i d1 s d' m s2 d2 s3 d3,
  Forall (fun x => exists ops', snd x = SetDate (Some D) :: ops' /\ Forall (uses D) ops') l ->
  Forall (uses D) ops ->
  sessions l (fun _ => None) = inl d1 ->
  session dir (SetDate (Some D) :: ops) d1 = inl (s, d') ->
  step (Export i) s d' = inl (s2, d2) ->
  session dir [SetDate (Some D); LoadState m (opt_dir s) i None] d2 = inl (s3, d3) ->
  exists a t, d2 (opt_dir s, i) = Some a /\ sim_t s = Some t /\
    file_clock a = Some (D + t)%Qc /\ clock s2 = Some (D + t)%Qc /\ clock s3 = Some (D + t)%Qc.
Proof.
  intros D l dir ops i d1 s d' m s2 d2 s3 d3 Hl Ho H1 H2 He H3.
  assert (Hd1 : dated D d1).
  { revert H1. assert (G : dated D (fun _ => None)) by (intros k a Hk; discriminate Hk).
    revert G. generalize (fun _ : (string * Z)%type => @None attrs). clear - Hl.
    induction Hl as [|[dr o] r Hx Hr IH]; intros d G H; cbn [sessions] in H.
    - injection H as <-. exact G.
    - destruct Hx as (ops' & E & Hu). cbn [snd] in E. subst o.
      destruct (session dr (SetDate (Some D) :: ops') d) as [[sa da]|e] eqn:Es; [|discriminate H].
      destruct (session_dated D dr ops' d sa da Hu G Es) as (_ & G2). apply (IH da G2 H). }
  destruct (session_dated D dir ops d1 s d' Ho Hd1 H2) as (Hs & Hd).
  pose proof (init_dated D s Hs) as (I1 & I2 & I3).
  cbn [step] in He. unfold export in He. cbv zeta in He.
  destruct (sim_t (initialize s)) as [t|] eqn:Et; [|discriminate He].
  assert (Hdir : opt_dir (initialize s) = opt_dir s) by (unfold initialize; destruct (exp_date s); reflexivity).
  assert (Htt : sim_t s = Some t).
  { rewrite <- Et. unfold initialize. destruct (exp_date s); reflexivity. }
  assert (Hx : exists x, exp_date (initialize s) = Some x).
  { unfold initialize. destruct (exp_date s) as [y|] eqn:Ey; [exists y; exact Ey|eexists; reflexivity]. }
  destruct Hx as (x & Ex). rewrite Ex in He. pose proof (I2 x Ex) as Hxd. subst x.
  injection He as E1 E2. subst s2 d2. rewrite Hdir in H3. 
  exists (mkAttrs (Some t) (Some D)), t. rewrite Hdir. split; [apply put_same|]. split; [exact Htt|].
  split; [reflexivity|]. split; [unfold clock; rewrite I1, Et; reflexivity|].
  unfold session in H3. cbn [run] in H3. cbn [step] in H3. unfold load_state in H3. cbv zeta in H3.
  rewrite put_same in H3. cbn [at_date at_time] in H3. injection H3 as E3 _. subst s3.
  unfold clock. cbn [opt_date sim_t]. destruct m; reflexivity.
Qed.

(* ------------------------------------------------------------------ *)
(** * Dates that are not given again *)

(** Refuted: the second run of a chain takes the date from the file it
    continues from, but its own files carry the date the options had when the
    exporters were created, that is none. A third run has no date. *)
Theorem C81_chain_loses_date_refuted : forall D t1 t2,
  let run1 := [SetDate (Some D); Initialize; Tick t1; Export 1] in
  let run2 := [LoadState Two "out" 1 None; Tick t2; Export 2] in
  exists d1 s2 d2 s3 d3,
    sessions [("out", run1)] (fun _ => None) = inl d1 /\
    session "out" run2 d1 = inl (s2, d2) /\ clock s2 = Some (D + t2)%Qc /\
    session "out" [LoadState Two "out" 2 None] d2 = inl (s3, d3) /\
    sim_t s3 = Some t2 /\ clock s3 = None.
Proof.
  intros D t1 t2 run1 run2. eexists _, _, _, _, _.
  split; [reflexivity|]. split; [reflexivity|]. split; [reflexivity|]. split; [reflexivity|].
  split; reflexivity.
Qed.

Lemma some_inj : forall x y : Qc, Some x = Some y -> x = y.
Proof.
  intros x y E. exact (f_equal (fun o : option Qc => match o with Some z => z | None => x end) E).
Qed.

(** Refuted: with another date given in the second run its clock follows the
    file, while the files it writes are stamped with the date given. *)
Theorem C81_files_follow_options_refuted : forall D D2 t1 t2, D <> D2 ->
  let run1 := [SetDate (Some D); Initialize; Tick t1; Export 1] in
  let run2 := [SetDate (Some D2); LoadState Two "out" 1 None; Tick t2; Export 2] in
  exists d1 s2 d2 a,
    sessions [("out", run1)] (fun _ => None) = inl d1 /\
    session "out" run2 d1 = inl (s2, d2) /\ clock s2 = Some (D + t2)%Qc /\
    d2 ("out", 2%Z) = Some a /\ file_clock a = Some (D2 + t2)%Qc /\
    file_clock a <> clock s2.
Proof.
  intros D D2 t1 t2 Hne run1 run2. eexists _, _, _, _.
  split; [reflexivity|]. split; [reflexivity|]. split; [reflexivity|]. split; [reflexivity|].
  split; [reflexivity|]. intro H. apply Hne.
  assert (H' : Some (D2 + t2)%Qc = Some (D + t2)%Qc) by exact H. clear H. rename H' into H. apply some_inj in H.
  apply (f_equal (fun z => (z - t2)%Qc)) in H.
  replace (D2 + t2 - t2)%Qc with D2 in H by ring. replace (D + t2 - t2)%Qc with D in H by ring.
  symmetry. exact H.
Qed.

(** A callback created after the last change of the date labels its time axis
    with the clock of the solver. *)
Theorem C81_callback_axis : forall s d s1 d1 ops s2 d2 c,
  run [AddCallback] s d = inl (s1, d1) -> run ops s1 d1 = inl (s2, d2) ->
  Forall (fun o => match o with Tick _ | Export _ | Evaluate | Initialize => True | _ => False end) ops ->
  In c (cbs s2) -> nth_error (cbs s2) (List.length (cbs s)) = Some c ->
  cb_units c = opt_date s2.
Proof.
  intros s d s1 d1 ops s2 d2 c H0 H1 Hf _ Hc.
  cbn [run step] in H0. injection H0 as <- <-.
  assert (G : forall ops s d s2 d2 n x,
    Forall (fun o => match o with Tick _ | Export _ | Evaluate | Initialize => True | _ => False end) ops ->
    run ops s d = inl (s2, d2) ->
    nth_error (cbs s) n = Some x -> cb_units x = opt_date s ->
    exists y, nth_error (cbs s2) n = Some y /\ cb_units y = opt_date s2).
  { clear. induction ops as [|o r IH]; intros s d s2 d2 n x Hf H Hn Hx; cbn [run] in H.
    - injection H as <- <-. exists x. split; assumption.
    - inversion Hf as [|? ? Ho Hr]; subst. destruct (step o s d) as [[s1 d1]|e] eqn:E; [|discriminate H].
      destruct o; cbn in Ho; try contradiction; cbn [step] in E.
      + injection E as <- <-. refine (IH _ _ _ _ n x Hr H _ _); unfold initialize; destruct (exp_date s); assumption.
      + injection E as <- <-. refine (IH _ _ _ _ n x Hr H _ _); assumption.
      + unfold export in E. destruct (sim_t (initialize s)); [|discriminate E]. injection E as <- <-.
        refine (IH _ _ _ _ n x Hr H _ _); unfold initialize; destruct (exp_date s); assumption.
      + destruct (sim_t s) as [t|]; [|discriminate E]. injection E as <- <-.
        refine (IH _ _ _ _ n (mkCb (cb_units x) (cb_times x ++ [t])) Hr H _ _); [|exact Hx].
        cbn [cbs]. rewrite (map_nth_error _ _ _ Hn). reflexivity. }
  destruct (G ops _ d s2 d2 (List.length (cbs s)) (mkCb (opt_date s) []) Hf H1) as (y & Hy & Hu).
  - cbn [cbs]. rewrite nth_error_app2 by lia. rewrite Nat.sub_diag. reflexivity.
  - reflexivity.
  - rewrite Hy in Hc. injection Hc as <-. exact Hu.
Qed.

(** Refuted for a callback created before load_state: its time axis counts from
    the date of before, here from another day. *)
Theorem C81_early_callback_refuted : forall D D2 t, D <> D2 ->
  let file := fun k => if andb (String.eqb (fst k) "spinup") (Z.eqb (snd k) 0) then Some (mkAttrs (Some t) (Some D)) else None in
  exists s d c, session "out" [SetDate (Some D2); AddCallback; LoadState Two "spinup" 0 None; Evaluate] file = inl (s, d) /\
    cbs s = [c] /\ cb_times c = [t] /\ cb_units c = Some D2 /\ clock s = Some (D + t)%Qc.
Proof.
  intros D D2 t Hne file. eexists _, _, _.
  split; [reflexivity|]. repeat split; reflexivity.
Qed.

(** Two runs and a restart in 2020 (seconds since 1970). *)
Example C81_example :
  match sessions [("out", [SetDate (Some (qz 1577836800)); Initialize; AddCallback; Tick (qz 600); Evaluate; Export 1])] (fun _ => None) with
  | inl d1 =>
    match session "out" (SetDate (Some (qz 1577836800)) :: [LoadState Three "out" 1 None; AddCallback; Tick (qz 1200); Evaluate; Export 2]) d1 with
    | inl (s, d2) =>
        option_map this (clock s) = Some (1577838000 # 1) /\
        option_map (fun a => option_map this (file_clock a)) (d2 ("out", 1%Z)) = Some (Some (1577837400 # 1)) /\
        option_map (fun a => option_map this (file_clock a)) (d2 ("out", 2%Z)) = Some (Some (1577838000 # 1)) /\
        map (fun c => map this (cb_times c)) (cbs s) = [[1200 # 1]]
    | inr _ => False
    end
  | inr _ => False
  end.
Proof. vm_compute. repeat split; reflexivity. Qed.

Print Assumptions C81_same_date_everywhere.
Print Assumptions C81_restart_clock.
Print Assumptions C81_override_3d_refuted.
Print Assumptions C81_chain_loses_date_refuted.
Print Assumptions C81_callback_axis.
