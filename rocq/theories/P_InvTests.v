(** C79: the tests before an optimisation, what minimize returns, the reported terms of
    the cost function, masked controls and the progress files. *)
From Coq Require Import Reals List Bool String Arith Lia Lra.
From Verif Require Import Inversion_Model P_Inversion_Records InvTests_Model.
Import ListNotations.
Open Scope R_scope.

(* ------------------------------------------------------------------ *)
(** * Tests *)
Section T.
Context {M G Row : Type}.
Variables (fJ fReg fMis : M -> R) (fG : M -> G) (fS : M -> Row).
Let st := imst M G Row.
Let consistency_test := consistency_test M G Row fJ fReg fMis fS.
Let stop_annotating := stop_annotating M G Row fJ fReg fMis fG fS.
Let minimize := minimize M G Row fJ fReg fMis fG fS.
Let fresh := fresh M G Row.

Lemma isclose_refl : forall a, isclose a a = true.
Proof.
  intro a. unfold isclose. destruct (Rle_dec _ _) as [|N]; [reflexivity|]. exfalso. apply N.
  rewrite Rminus_diag_eq by reflexivity. rewrite Rabs_R0. pose proof (Rabs_pos a). lra.
Qed.
Lemma isclose_far : forall a b, 1 + 2 * Rabs b < Rabs (a - b) -> isclose a b = false.
Proof.
  intros a b H. unfold isclose. destruct (Rle_dec _ _) as [L|]; [|reflexivity]. exfalso. pose proof (Rabs_pos b). lra.
Qed.

(** The consistency test compares the recomputed value with itself: it never raises,
    whatever value the forward run recorded and whatever the tape recomputes. *)
Theorem C79_consistency_test_refuted : forall (m : M) (x : st),
  exists y, consistency_test m x = IOk y /\ c_J _ _ _ y = fJ m.
Proof.
  intros m x. unfold consistency_test, InvTests_Model.consistency_test. cbn [do_eval collect c_J].
  rewrite isclose_refl. eexists. split; reflexivity.
Qed.
(** In particular a functional that does not reproduce the recorded value passes. *)
Theorem C79_inconsistent_passes_refuted : forall (m : M), exists (x : st) y,
  isclose (fJ m) (c_J _ _ _ x) = false /\ consistency_test m x = IOk y.
Proof.
  intro m. set (b := fJ m + (1 + Rabs (fJ m))).
  set (x := mk_im M G Row m b 0 0 None None [] [] [] [] 0 0 [] None None).
  destruct (C79_consistency_test_refuted m x) as (y & H & _). exists x, y. split; [|exact H].
  change (c_J M G Row x) with b. unfold isclose. destruct (Rle_dec _ _) as [L|]; [|reflexivity]. exfalso.
  pose proof (Rabs_pos (fJ m)) as P.
  replace (fJ m - b) with (- (1 + Rabs (fJ m))) in L by (unfold b; ring).
  rewrite Rabs_Ropp, (Rabs_pos_eq (1 + Rabs (fJ m))) in L by lra.
  assert (B : Rabs b <= 1 + 2 * Rabs (fJ m)).
  { unfold b. eapply Rle_trans; [apply Rabs_triang|]. rewrite (Rabs_pos_eq (1 + Rabs (fJ m))) by lra. lra. }
  lra.
Qed.

(** So the tests before an optimisation fail exactly for a Taylor rate below 1.9. *)
Theorem C79_tests_fail : forall consistency gradient m evals rate (x : st),
  (exists e, stop_annotating consistency gradient m evals rate x = IErr e) <-> gradient = true /\ rate < 19 / 10.
Proof.
  intros c g m evals rate x. unfold stop_annotating, InvTests_Model.stop_annotating.
  assert (K : forall y : st, (exists e, (if g then taylor_test M G Row fJ fReg fMis fG fS evals rate y else IOk y) = IErr e) <->
    g = true /\ rate < 19 / 10).
  { intro y. destruct g; [|split; [intros (e & H); discriminate H|intros [H _]; discriminate H]].
    unfold taylor_test. destruct (Rlt_dec rate (19 / 10)) as [L|L].
    - split; [auto|]. intros _. eexists. reflexivity.
    - split; [intros (e & H); discriminate H|intros [_ H]; contradiction]. }
  destruct c.
  - destruct (C79_consistency_test_refuted m x) as (y & H & _). unfold consistency_test in H. rewrite H. cbn [ibind]. apply K.
  - cbn [ibind]. apply K.
Qed.

(* ------------------------------------------------------------------ *)
(** * The tests leave no trace in the records *)
Definition untouched (x : st) : Prop :=
  p_J _ _ _ x = [] /\ p_reg _ _ _ x = [] /\ p_mis _ _ _ x = [] /\ p_dJ _ _ _ x = [] /\ c_i _ _ _ x = 0%nat /\ c_file _ _ _ x = None /\
  ((s_rows _ _ _ x = [] /\ s_last _ _ _ x = None) \/ (exists r, s_rows _ _ _ x = [r] /\ s_last _ _ _ x = Some 0%nat)).

Lemma eval_untouched : forall m x, untouched x -> untouched (do_eval M G Row fJ fReg fMis fS m x).
Proof.
  intros m x (A & B & C & D & E & F & K). repeat (split; [cbn; assumption|]). right. exists (fS m). cbn.
  rewrite E. destruct K as [[-> ->]|(r & -> & ->)]; cbn; auto.
Qed.
Lemma grad_untouched : forall x, untouched x -> untouched (do_grad M G Row fG x).
Proof. intros x H. exact H. Qed.
Lemma probes_untouched : forall ps x, untouched x -> untouched (run_probes M G Row fJ fReg fMis fG fS ps x).
Proof.
  unfold run_probes. induction ps as [|p ps IH]; intros x H; cbn [fold_left]; [exact H|]. apply IH.
  destruct p as [m|]; cbn [run_probe]; [now apply eval_untouched|now apply grad_untouched].
Qed.

(** Whatever the tests evaluate before, the optimisation does and records the same. *)
Theorem C79_tests_leave_no_trace : forall consistency gradient m evals rate m' x ex m0 ops fin,
  stop_annotating consistency gradient m evals rate (fresh m') = IOk x ->
  minimize ex m0 ops fin x = minimize ex m0 ops fin (fresh m0).
Proof.
  intros c g m evals rate m' x ex m0 ops fin H.
  assert (U0 : untouched (fresh m')). { repeat (split; [reflexivity|]). left. split; reflexivity. }
  assert (U : untouched x).
  { unfold stop_annotating, InvTests_Model.stop_annotating in H.
    assert (K : forall y : st, untouched y -> (if g then taylor_test M G Row fJ fReg fMis fG fS evals rate y else IOk y) = IOk x -> untouched x).
    { intros y Uy Hy. destruct g; [|injection Hy as <-; exact Uy]. unfold taylor_test in Hy.
      destruct (Rlt_dec rate (19 / 10)); [discriminate|]. injection Hy as <-. now apply probes_untouched. }
    destruct c; [|exact (K _ U0 H)].
    unfold InvTests_Model.consistency_test in H. destruct (isclose _ _) in H; [|discriminate]. cbn [ibind] in H.
    exact (K _ (eval_untouched m _ U0) H). }
  destruct U as (A & B & C & D & E & F & K). unfold minimize, InvTests_Model.minimize. f_equal.
  unfold start. f_equal.
  assert (Q : do_grad M G Row fG (do_eval M G Row fJ fReg fMis fS m0 (reset_counters M G Row x)) =
              do_grad M G Row fG (do_eval M G Row fJ fReg fMis fS m0 (reset_counters M G Row (fresh m0)))).
  { unfold reset_counters, do_eval, do_grad, fresh, Inversion_Model.fresh, collect. cbn.
    rewrite A, B, C, D, E, F. destruct K as [[-> ->]|(r & -> & ->)]; reflexivity. }
  rewrite Q. reflexivity.
Qed.

(* ------------------------------------------------------------------ *)
(** * What minimize returns *)
(** The controls of the latest derivative of a history ([cur]: evaluated last, [g]:
    of the latest derivative so far) *)
Fixpoint latest_derivative (cur g : M) (ops : list (op M)) : M :=
  match ops with
  | [] => g
  | OEval _ m :: r => latest_derivative m g r
  | OGrad _ :: r => latest_derivative cur cur r
  | OCall _ :: r => latest_derivative cur g r
  end.

Lemma run_m : forall ex ops cur g (x y : st), c_tape _ _ _ x = cur -> c_m _ _ _ x = Some g ->
  opt_run M G Row fJ fReg fMis fG fS ex ops x = IOk y -> c_m _ _ _ y = Some (latest_derivative cur g ops).
Proof.
  intros ex ops. induction ops as [|o ops IH]; intros cur g x y Hc Hm H; cbn [opt_run latest_derivative] in *.
  - injection H as <-. exact Hm.
  - destruct o as [m| |]; cbn [opt_step ibind] in H.
    + exact (IH m g (do_eval M G Row fJ fReg fMis fS m x) y eq_refl Hm H).
    + apply (IH cur cur (do_grad M G Row fG x) y Hc); [cbn; now rewrite Hc|exact H].
    + unfold update_progress in H. destruct (c_dJ M G Row x) as [d|]; [|discriminate]. cbn [ibind] in H.
      destruct ex; cbn [ibind] in H.
      * unfold dump in H. cbn in H. destruct (s_last M G Row x); [|discriminate]. cbn [ibind] in H.
        eapply IH; [| |exact H]; cbn; assumption.
      * eapply IH; [| |exact H]; cbn; assumption.
Qed.

(** The optimisation always gets to its end; a converged routine's result is returned;
    at the iteration limit the controls of the latest derivative are; another error is
    raised again. *)
Theorem C79_minimize_returns : forall ex m0 ops fin, exists z,
  optimise M G Row fJ fReg fMis fG fS ex m0 ops = IOk z /\
  minimize ex m0 ops fin (fresh m0) = IOk (z, match fin with
    | Converged _ m => Result M (Some m)
    | Limit _ => Result M (Some (latest_derivative m0 m0 ops))
    | Failed _ => Reraised M
    end).
Proof.
  intros ex m0 ops fin. destruct (C54_records fJ fReg fMis fG fS ex m0 ops) as (z & Hz & _).
  exists z. split; [exact Hz|]. unfold minimize, InvTests_Model.minimize.
  change (reset_counters M G Row (fresh m0)) with (fresh m0).
  unfold optimise in Hz. unfold fresh.
  destruct (start M G Row fJ fReg fMis fG fS ex m0 (Inversion_Model.fresh M G Row m0)) as [y|e] eqn:Es; [|discriminate].
  cbn [ibind] in *. rewrite Hz. cbn [ibind]. f_equal. f_equal. destruct fin; try reflexivity. f_equal.
  destruct (start_inv fJ fReg fMis fG fS ex m0) as (y' & Ey & Iy & _). rewrite Ey in Es. injection Es as ->.
  destruct Iy. apply (run_m ex ops m0 m0 y z); assumption.
Qed.

(** After a last iteration in the order evaluation, derivative, callback these are the
    controls of that iteration. *)
Theorem C79_limit_last_iterate : forall cur g ops m,
  latest_derivative cur g (ops ++ [OEval M m; OGrad M; OCall M]) = m.
Proof.
  intros cur g ops. revert cur g. induction ops as [|o ops IH]; intros cur g m; [reflexivity|].
  destruct o as [m'| |]; cbn [app latest_derivative]; apply IH.
Qed.

(** A second optimisation continues the records of the first one. *)
Theorem C79_second_run_continues : forall ex m0 ops m1 ops1 fin fin1, exists z r,
  minimize ex m0 ops fin (fresh m0) = IOk (z, r) /\
  exists z1 r1, minimize ex m1 ops1 fin1 z = IOk (z1, r1) /\
    p_J _ _ _ z = map fJ (m0 :: at_callbacks m0 ops) /\
    p_J _ _ _ z1 = (p_J _ _ _ z ++ map fJ (m1 :: at_callbacks m1 ops1))%list /\
    p_dJ _ _ _ z1 = (p_dJ _ _ _ z ++ map fG (m1 :: grads_at m1 m1 ops1))%list.
Proof.
  intros ex m0 ops m1 ops1 fin fin1.
  destruct (start_inv fJ fReg fMis fG fS ex m0) as (y & Ey & Iy & _).
  destruct (run_inv fJ fReg fMis fG fS ex ops m0 m0 [m0] [m0] y Iy) as (z & g & Hz & Iz).
  destruct (C79_minimize_returns ex m0 ops fin) as (z' & Oz & Mz).
  assert (z' = z).
  { unfold optimise in Oz. rewrite Ey in Oz. cbn [ibind] in Oz. rewrite Hz in Oz. now injection Oz as ->. }
  subst z'. eexists z, _. split; [exact Mz|].
  assert (S1 : exists w, start M G Row fJ fReg fMis fG fS ex m1 (reset_counters M G Row z) = IOk w /\
    inv fJ fReg fMis fG ex m1 m1 (([m0] ++ at_callbacks m0 ops) ++ [m1]) (([m0] ++ grads_at m0 m0 ops) ++ [m1]) w).
  { destruct Iz. unfold start, reset_counters, do_eval, do_grad, update_progress. cbn.
    destruct ex.
    - unfold dump. cbn. eexists. split; [reflexivity|].
      constructor; cbn; rewrite ?map_app, ?app_length; cbn [map List.length app] in *; try reflexivity; try congruence;
        try (rewrite ?i_i; cbn; lia); try discriminate;
        try (rewrite ?app_length in *; cbn in *; lia);
        rewrite ?i_pJ, ?i_preg, ?i_pmis, ?i_pdJ; reflexivity.
    - eexists. split; [reflexivity|].
      constructor; cbn; rewrite ?map_app, ?app_length; cbn [map List.length app] in *; try reflexivity; try congruence;
        try (rewrite ?i_i; cbn; lia); try discriminate;
        try (rewrite ?app_length in *; cbn in *; lia);
        rewrite ?i_pJ, ?i_preg, ?i_pmis, ?i_pdJ; reflexivity. }
  destruct S1 as (w & Ew & Iw).
  destruct (run_inv fJ fReg fMis fG fS ex ops1 m1 m1 _ _ w Iw) as (z1 & g1 & Hz1 & Iz1).
  eexists z1, _. split.
  { unfold minimize, InvTests_Model.minimize. rewrite Ew. cbn [ibind]. rewrite Hz1. cbn [ibind]. reflexivity. }
  destruct Iz, Iz1. cbn [app] in *. split; [assumption|].
  rewrite i_pJ0, i_pJ, i_pdJ0, i_pdJ. rewrite <- !app_assoc. cbn [app]. 
  rewrite !app_comm_cons, !map_app. split; reflexivity.
Qed.
End T.

(* ------------------------------------------------------------------ *)
(** * The reported terms *)
Lemma rsum_app : forall a b, rsum (a ++ b) = rsum a + rsum b.
Proof. unfold rsum. induction a as [|x a IH]; intro b; cbn; [lra|]. rewrite IH. lra. Qed.
Lemma sums_app : forall a b, reg_sum (a ++ b) = reg_sum a + reg_sum b /\ misfit_sum (a ++ b) = misfit_sum a + misfit_sum b.
Proof. intros a b. unfold reg_sum, misfit_sum. rewrite !filter_app, !map_app, !rsum_app. auto. Qed.
Lemma sums_reg : forall l, reg_sum (map (fun r => (true, r)) l) = rsum l /\ misfit_sum (map (fun r => (true, r)) l) = 0.
Proof.
  unfold reg_sum, misfit_sum, rsum. induction l as [|a l [IH1 IH2]]; [split; reflexivity|]. cbn in *. rewrite IH1, IH2. auto.
Qed.
Lemma sums_mis : forall l, reg_sum (map (fun r => (false, r)) l) = 0 /\ misfit_sum (map (fun r => (false, r)) l) = rsum l.
Proof.
  unfold reg_sum, misfit_sum, rsum. induction l as [|a l [IH1 IH2]]; [split; reflexivity|]. cbn in *. rewrite IH1, IH2. auto.
Qed.
Lemma fold_plus : forall l a, fold_left Rplus l a = a + rsum l.
Proof. unfold rsum. induction l as [|x l IH]; intro a; cbn; [lra|]. rewrite IH. lra. Qed.
Lemma forward_sums : forall regs mis t,
  reg_sum (fst (forward regs mis t)) = reg_sum t + rsum regs /\
  misfit_sum (fst (forward regs mis t)) = misfit_sum t + rsum (map rsum mis) /\
  snd (forward regs mis t) = rsum regs + rsum (map rsum mis).
Proof.
  intros regs mis t. unfold forward. cbn [fst snd]. rewrite fold_plus.
  destruct (sums_app t (map (fun r => (true, r)) regs ++ flat_map (map (fun m => (false, m))) mis)) as [-> ->].
  destruct (sums_app (map (fun r => (true, r)) regs) (flat_map (map (fun m => (false, m))) mis)) as [-> ->].
  destruct (sums_reg regs) as [-> ->].
  assert (K : reg_sum (flat_map (map (fun m => (false, m))) mis) = 0 /\ misfit_sum (flat_map (map (fun m => (false, m))) mis) = rsum (map rsum mis)).
  { induction mis as [|a l [IH1 IH2]]; [split; reflexivity|]. cbn [flat_map].
    destruct (sums_app (map (fun m => (false, m)) a) (flat_map (map (fun m => (false, m))) l)) as [-> ->].
    destruct (sums_mis a) as [-> ->]. rewrite IH1, IH2. cbn [map]. unfold rsum. cbn [fold_right]. split; lra. }
  destruct K as [-> ->]. repeat split; lra.
Qed.

(** The regularisation and misfit terms reported with every evaluation add up to the
    value of the functional, for every number of penalties, stations and times ... *)
Theorem C79_terms_add_up : forall regs misfits,
  reg_sum (fst (forward regs misfits [])) = rsum regs /\
  reg_sum (fst (forward regs misfits [])) + misfit_sum (fst (forward regs misfits [])) = snd (forward regs misfits []).
Proof.
  intros regs mis. destruct (forward_sums regs mis []) as (-> & -> & ->). unfold reg_sum, misfit_sum. cbn. split; lra.
Qed.
(** ... but not once a cost function was made twice on one tape: the terms of both are
    counted, the value is that of the second. *)
Theorem C79_terms_twice_refuted : forall regs misfits, rsum regs + rsum (map rsum misfits) <> 0 ->
  let t := fst (forward regs misfits []) in let r := forward regs misfits t in
  reg_sum (fst r) + misfit_sum (fst r) = 2 * snd r /\ reg_sum (fst r) + misfit_sum (fst r) <> snd r.
Proof.
  intros regs mis N t r. destruct (forward_sums regs mis t) as (E1 & E2 & E3). destruct (forward_sums regs mis []) as (D1 & D2 & _).
  fold t in D1, D2. unfold r. rewrite E1, E2, E3, D1, D2. unfold reg_sum, misfit_sum. cbn [filter map rsum fold_right]. split; lra.
Qed.

(* ------------------------------------------------------------------ *)
(** * Masked controls *)
Section Masks.
Context {X : Type}.
(** The masked combination at a point *)
Definition combination (ms masks : list (X -> R)) (x : X) : R :=
  rsum (map (fun p : (X -> R) * (X -> R) => fst p x * snd p x) (combine ms masks)).

Lemma project_combination : forall ms masks x, project_masked X ms masks x = combination ms masks x.
Proof.
  intros ms masks x. unfold project_masked, combination.
  assert (K : forall (l : list ((X -> R) * (X -> R))) f, fold_left (fun (f : X -> R) p x => f x + fst p x * snd p x) l f x =
    f x + rsum (map (fun p : (X -> R) * (X -> R) => fst p x * snd p x) l)).
  { induction l as [|p l IH]; intro f; cbn [fold_left map rsum fold_right]; [lra|]. rewrite IH. cbn [rsum]. unfold rsum. lra. }
  rewrite K. lra.
Qed.

(** With masks that are nonnegative and add up to one the exported field lies between
    the smallest and the largest control. *)
Theorem C79_masked_bounds : forall (ms masks : list (X -> R)) x lo hi,
  List.length ms = List.length masks ->
  Forall (fun k : X -> R => 0 <= k x) masks -> rsum (map (fun k : X -> R => k x) masks) = 1 ->
  Forall (fun m : X -> R => lo <= m x <= hi) ms ->
  lo <= project_masked X ms masks x <= hi.
Proof.
  intros ms masks x lo hi L P S1 B. rewrite project_combination. unfold combination.
  assert (K : lo * rsum (map (fun k : X -> R => k x) masks) <= rsum (map (fun p : (X -> R) * (X -> R) => fst p x * snd p x) (combine ms masks))
    <= hi * rsum (map (fun k : X -> R => k x) masks)).
  { clear S1. revert masks L P. induction ms as [|m ms IH]; intros [|k masks] L P; try discriminate; cbn [combine map rsum fold_right fst snd].
    - cbn. lra.
    - inversion P; subst. inversion B; subst. injection L as L. specialize (IH H4 masks L H2). unfold rsum in IH.
      assert (Q1 : lo * k x <= m x * k x) by (apply Rmult_le_compat_r; lra).
      assert (Q2 : m x * k x <= hi * k x) by (apply Rmult_le_compat_r; lra). lra. }
  rewrite S1 in K. lra.
Qed.
(** Where only one mask is active, and is one, the field is that control. *)
Theorem C79_masked_region : forall (ms1 masks1 ms2 masks2 : list (X -> R)) (m k : X -> R) x,
  List.length ms1 = List.length masks1 ->
  Forall (fun k : X -> R => k x = 0) masks1 -> Forall (fun k : X -> R => k x = 0) masks2 -> k x = 1 ->
  project_masked X (ms1 ++ m :: ms2) (masks1 ++ k :: masks2) x = m x.
Proof.
  intros ms1 masks1 ms2 masks2 m k x L Z1 Z2 K1. rewrite project_combination. unfold combination.
  assert (Z : forall ms masks, Forall (fun k : X -> R => k x = 0) masks ->
    rsum (map (fun p : (X -> R) * (X -> R) => fst p x * snd p x) (combine ms masks)) = 0).
  { induction ms as [|a ms IH]; intros [|b masks] H; cbn; try reflexivity. inversion H; subst. rewrite H2.
    unfold rsum in IH. rewrite IH by assumption. lra. }
  revert masks1 L Z1. induction ms1 as [|a ms1 IH]; intros [|b masks1] L Z1; try discriminate; cbn [app combine map rsum fold_right fst snd].
  - rewrite K1. specialize (Z ms2 masks2 Z2). unfold rsum in Z. rewrite Z. lra.
  - inversion Z1; subst. injection L as L. specialize (IH masks1 L H2). unfold rsum in IH. rewrite IH, H1. lra.
Qed.
(** Controls beyond the number of masks are dropped without an error. *)
Theorem C79_masked_surplus_refuted : forall (ms extra masks : list (X -> R)) x,
  List.length ms = List.length masks -> project_masked X (ms ++ extra) masks x = project_masked X ms masks x.
Proof.
  intros ms extra masks x L. rewrite !project_combination. unfold combination. do 2 f_equal.
  revert masks L. induction ms as [|a ms IH]; intros [|b masks] L; try discriminate; cbn; [destruct extra; reflexivity|].
  injection L as L. now rewrite IH.
Qed.
End Masks.

(* ------------------------------------------------------------------ *)
(** * Progress files *)
(** Nothing is saved with exports switched off or in real mode; otherwise the four lists
    are.  There is no error. *)
Theorem C79_progress_files : forall no_exports real, exists l, progress_files no_exports real = IOk l /\
  (l = [] <-> no_exports = true \/ real = true) /\
  (l <> [] -> l = ["J_progress"; "J_reg_progress"; "J_misfit_progress"; "dJdm_progress"]%string).
Proof.
  intros [] []; (eexists; split; [reflexivity|]); cbn; split;
    try (split; [intros; auto; try discriminate|auto; intros [H|H]; discriminate H]); try congruence; auto.
Qed.
(** The controls of a real-mode inversion are never saved. *)
Theorem C79_real_controls_refuted : forall no_exports real l,
  progress_files no_exports real = IOk l -> ~ In "m_progress"%string l.
Proof.
  intros [] [] l H; cbn in H; injection H as <-; cbn; try tauto.
  intros [K|[K|[K|[K|[]]]]]; discriminate K.
Qed.

(* ------------------------------------------------------------------ *)
(** * Cases *)
Example C79_limit_case :
  latest_derivative 0 0 [OEval R 5; OGrad R; OCall R; OEval R 9] = 5.
Proof. reflexivity. Qed.
Example C79_tests_case : exists x,
  stop_annotating R R R (fun m => m * m) (fun _ => 0) (fun m => m * m) (fun m => 2 * m) (fun m => m) true true 3
    [PEval R 4; PGrad R] 2 (fresh R R R 3) = IOk x.
Proof.
  destruct (stop_annotating R R R (fun m => m * m) (fun _ => 0) (fun m => m * m) (fun m => 2 * m) (fun m => m) true true 3
    [PEval R 4; PGrad R] 2 (fresh R R R 3)) as [x|e] eqn:E; [now exists x|]. exfalso.
  destruct (C79_tests_fail (fun m => m * m) (fun _ => 0) (fun m => m * m) (fun m => 2 * m) (fun m : R => m) true true 3
    [PEval R 4; PGrad R] 2 (fresh R R R 3)) as [H _]. destruct H as [_ H]; [now exists e|lra].
Qed.
Example C79_terms_case : snd (forward [1; 2] [[3; 4]; [5]] []) = 15 /\
  reg_sum (fst (forward [1; 2] [[3; 4]; [5]] [])) = 3 /\ misfit_sum (fst (forward [1; 2] [[3; 4]; [5]] [])) = 12.
Proof. unfold forward, reg_sum, misfit_sum. cbn. repeat split; lra. Qed.
Example C79_masks_case :
  let ms := [fun _ : bool => 2; fun _ : bool => 6] in
  let masks := [fun x : bool => if x then 1 else / 2; fun x : bool => if x then 0 else / 2] in
  List.length ms = List.length masks /\
  (forall x, Forall (fun k : bool -> R => 0 <= k x) masks /\ rsum (map (fun k : bool -> R => k x) masks) = 1 /\
             Forall (fun m : bool -> R => 2 <= m x <= 6) ms) /\
  project_masked bool ms masks true = 2 /\ project_masked bool ms masks false = 4.
Proof.
  intros ms masks. split; [reflexivity|]. split.
  - intros []; (split; [repeat constructor; lra|]); (split; [cbn; lra|repeat constructor; lra]).
  - unfold project_masked. cbn. split; lra.
Qed.

Print Assumptions C79_tests_leave_no_trace.
Print Assumptions C79_masked_bounds.
