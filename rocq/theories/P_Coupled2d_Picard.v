(** C55: what the flags of the Picard iterations mean for Crank-Nicolson. *)
From Coq Require Import Reals List String Arith Bool Lia.
From Verif Require Import RK_Model TimeInt_Model Coupled2d_Model Coupled2d_Spec.
Import ListNotations.
Open Scope R_scope.

Section Picard.
Context {D Val B : Type}.
Local Notation vec := (D -> R).
Variable keys : list string.
Variable kind : string -> ckind.
Variable Res : vec -> vec -> (string -> option Val) -> (string -> option Val) -> B -> vec.
Variable mass : vec -> vec.
Variable solve : (vec -> vec) -> vec -> vec.
Variable dt : R.
Variable uf : option (@forcing Val B).
Variable theta : R.
Variable semi : bool.

(** What the other tracers do to the current coefficient values between two solves
    of this one. *)
Variable others : nat -> @coefs Val B -> @coefs Val B.
Hypothesis others_old : forall i c, oldv (others i c) = oldv c.

Local Notation tst := (@tst D Val B).
Local Notation adv := (cn_advance_picard keys kind Res mass solve dt uf theta semi).
Local Notation resid := (cn_residual kind Res mass dt theta semi).

(** The flags as they appear in the events of a step. *)
Fixpoint run_events (l : list ev) (t : R) (i : nat) (s : tst) : tst :=
  match l with
  | EPicard _ _ lag upd :: l' =>
      run_events l' t (S i) (adv lag upd t (mk_tst (tsol s) (told s) (others i (tco s))))
  | EAdvance _ _ :: l' =>
      run_events l' t (S i)
        (cn_advance keys kind Res mass solve dt uf theta semi t (mk_tst (tsol s) (told s) (others i (tco s))))
  | _ :: l' => run_events l' t i s
  | [] => s
  end.

Lemma force_oldv : forall t c, oldv (force_co uf t c) = oldv c.
Proof. intros. unfold force_co. destruct uf as [f|]; [|reflexivity]. destruct (f t (val c, oth c)); reflexivity. Qed.

Lemma adv_first : forall t s upd,
  let r := adv true upd t s in
  told r = tsol s /\
  exists c, oldv c = oldv (tco s) /\
    tsol r = solve (resid (mk_tst (tsol s) (tsol s) c)) (tsol s) /\
    tco r = if upd then update_fields_old keys kind c else c.
Proof.
  intros t s upd. unfold cn_advance_picard. cbn [tsol told tco].
  destruct upd; cbn [tsol told tco]; (split; [reflexivity|]);
  exists (force_co uf (t + dt) (tco s)); (split; [apply force_oldv|split; reflexivity]).
Qed.

Lemma adv_later : forall t s upd,
  let r := adv false upd t s in
  told r = told s /\
  exists c, oldv c = oldv (tco s) /\
    tsol r = solve (resid (mk_tst (tsol s) (told s) c)) (tsol s) /\
    tco r = if upd then update_fields_old keys kind c else c.
Proof.
  intros t s upd. unfold cn_advance_picard. cbn [tsol told tco].
  destruct upd; cbn [tsol told tco]; (split; [reflexivity|]);
  exists (force_co uf (t + dt) (tco s)); (split; [apply force_oldv|split; reflexivity]).
Qed.

(** After a step with any number of Picard iterations the old solution is the
    solution at the beginning of the step, the last solve was of the theta scheme
    between that and the new solution with the old fields of the beginning of the
    step, and only then were the old fields replaced. *)
Theorem C55_picard_crank_nicolson : forall (c0 : comp) t0 p t s,
  (0 < p)%nat ->
  let r := run_events (map (fun i => EPicard c0 t0 (Nat.eqb i 0) (Nat.eqb (S i) p)) (seq 0 p)) t 0 s in
  told r = tsol s /\
  exists x0 c, oldv c = oldv (tco s) /\
    tsol r = solve (resid (mk_tst x0 (tsol s) c)) x0 /\
    tco r = update_fields_old keys kind c.
Proof.
  intros c0 t0 p t s Hp.
  assert (G : forall m i u, (i + m = p)%nat -> (0 < m)%nat -> (0 < i)%nat ->
    let r := run_events (map (fun j => EPicard c0 t0 (Nat.eqb j 0) (Nat.eqb (S j) p)) (seq i m)) t i u in
    told r = told u /\
    exists x0 c, oldv c = oldv (tco u) /\
      tsol r = solve (resid (mk_tst x0 (told u) c)) x0 /\
      tco r = update_fields_old keys kind c).
  { induction m as [|m IH]; intros i u Hi Hm H0; [lia|].
    cbn [seq map run_events].
    assert (E0 : Nat.eqb i 0 = false) by (apply Nat.eqb_neq; lia). rewrite E0.
    set (u' := mk_tst (tsol u) (told u) (others i (tco u))).
    destruct (adv_later t u' (Nat.eqb (S i) p)) as (A1 & c & A2 & A3 & A4). cbv zeta in A1, A3, A4.
    destruct m as [|m].
    - assert (E1 : Nat.eqb (S i) p = true) by (apply Nat.eqb_eq; lia). rewrite E1 in *.
      cbn [seq map run_events]. split; [exact A1|].
      exists (tsol u), c. split; [rewrite A2; apply others_old|split; assumption].
    - assert (E1 : Nat.eqb (S i) p = false) by (apply Nat.eqb_neq; lia). rewrite E1 in *.
      destruct (IH (S i) (adv false false t u') ltac:(lia) ltac:(lia) ltac:(lia)) as (B1 & x0 & c' & B2 & B3 & B4).
      cbv zeta in B1, B3, B4. rewrite A1 in B1, B3. split; [exact B1|].
      exists x0, c'. split; [|split; assumption]. rewrite B2, A4, A2. apply others_old. }
  destruct p as [|p]; [lia|]. cbn [seq map run_events Nat.eqb].
  set (u' := mk_tst (tsol s) (told s) (others 0 (tco s))).
  destruct p as [|p].
  - cbn [Nat.eqb seq map run_events].
    destruct (adv_first t u' true) as (A1 & c & A2 & A3 & A4). cbv zeta in A1, A3, A4.
    split; [exact A1|]. exists (tsol s), c. split; [rewrite A2; apply others_old|split; assumption].
  - cbn [Nat.eqb].
    destruct (adv_first t u' false) as (A1 & c & A2 & A3 & A4). cbv zeta in A1, A3, A4.
    destruct (G (S p) 1%nat (adv true false t u') ltac:(lia) ltac:(lia) ltac:(lia)) as (B1 & x0 & c' & B2 & B3 & B4).
    cbv zeta in B1, B3, B4. rewrite A1 in B1, B3. split; [exact B1|].
    exists x0, c'. split; [|split; assumption]. rewrite B2, A4, A2. apply others_old.
Qed.

(** One iteration is the plain step. *)
Theorem C55_picard_one : forall (c0 : comp) t0 t s,
  run_events [EPicard c0 t0 true true] t 0 s = run_events [EAdvance c0 t0] t 0 s.
Proof. reflexivity. Qed.

(** The solution before the last solve is the one of the iteration before, so the
    solver starts from the best value so far. *)
Theorem C55_picard_starting_value : forall (c0 : comp) t0 t s lag,
  exists c, oldv c = oldv (tco s) /\
  tsol (run_events [EPicard c0 t0 lag true] t 0 s)
  = solve (resid (mk_tst (tsol s) (if lag then tsol s else told s) c)) (tsol s).
Proof.
  intros c0 t0 t s lag. cbn [run_events]. set (u := mk_tst (tsol s) (told s) (others 0 (tco s))).
  destruct lag.
  - destruct (adv_first t u true) as (_ & c & A2 & A3 & _). exists c. split; [rewrite A2; apply others_old|exact A3].
  - destruct (adv_later t u true) as (_ & c & A2 & A3 & _). exists c. split; [rewrite A2; apply others_old|exact A3].
Qed.
End Picard.

Print Assumptions C55_picard_crank_nicolson.

(** The hypothesis on the other tracers is met, e.g. when there are none. *)
Example ex_picard_alone : forall (solve : ((unit -> R) -> unit -> R) -> (unit -> R) -> unit -> R) s,
  told (@run_events unit R unit [] (fun _ => KNone) (fun u _ _ _ _ => u) (fun u => u) solve 1 None 1 false
          (fun _ c => c)
          (map (fun i => EPicard CSwe 0 (Nat.eqb i 0) (Nat.eqb (S i) 3)) (seq 0 3)) 0 0 s) = tsol s.
Proof. intros. apply C55_picard_crank_nicolson; [reflexivity|lia]. Qed.
