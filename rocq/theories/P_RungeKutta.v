(** C22, C23, C24, C25, C26, C28: Runge-Kutta integrators. *)

From Coq Require Import Reals List Arith Bool Lia Lra FunctionalExtensionality IndefiniteDescription Classical.
From Verif Require Import RK_Model RK_Spec RK_Proofs RK_Proofs2 RK_Proofs3 RK_Proofs4.
Import ListNotations.
Open Scope R_scope.

(** ** C22: the conversion to Shu-Osher form preserves the scheme *)

Lemma subdiag_butcher T : (0 < ns T)%nat -> nonzero_subdiagonal (ns T) (ta T) (tb T) ->
  forall i, (i < ns T)%nat -> butcher T (S i) i <> 0.
Proof.
  intros Hn [H1 H2] i Hi. unfold butcher. destruct (Nat.ltb (S i) (ns T)) eqn:E.
  - apply Nat.ltb_lt in E. apply H1. exact E.
  - apply Nat.ltb_ge in E. replace i with (ns T - 1)%nat by lia. exact H2.
Qed.

Lemma round13_cases x : round13 x = x \/ (round13 x = 0 /\ Rabs x < / 10 ^ 13).
Proof. unfold round13, tiny. destruct (Rlt_dec (Rabs x) (/ 10 ^ 13)); [right|left]; auto. Qed.

Lemma unit_rows_ext n m m' : (forall i j, (i <= n)%nat -> (j <= n)%nat -> m i j = m' i j) ->
  unit_row_sums n m -> unit_row_sums n m'.
Proof.
  intros H Hs i Hi. rewrite <- (Hs i Hi), !Sum_rsum. apply rsum_ext. intros j Hj. symmetry. apply H; lia.
Qed.

Lemma implicit_form_ext {D Env} n al be al' be' (F : Env -> (D -> R) -> D -> R) dt e u u' :
  (forall i j, (i <= n)%nat -> (j <= n)%nat -> al i j = al' i j) ->
  (forall i j, (i <= n)%nat -> (j <= n)%nat -> be i j = be' i j) ->
  shuosher_implicit_step n al be F dt e u u' -> shuosher_implicit_step n al' be' F dt e u u'.
Proof.
  intros Ha Hb (y & Hy & Hu).
  assert (E : forall i, (i <= n)%nat -> shuosher_row n al be F dt e u y i = shuosher_row n al' be' F dt e u y i).
  { intros i Hi. unfold shuosher_row. fext x. rewrite !Sum_rsum, (Ha i 0%nat) by lia.
    f_equal; [f_equal|f_equal]; apply rsum_ext; intros j Hj; [rewrite Ha by lia|rewrite Hb by lia]; reflexivity. }
  exists y. split.
  - intros i Hi. rewrite <- E by lia. apply Hy. exact Hi.
  - rewrite <- E by lia. exact Hu.
Qed.

(** Explicit schemes.  [alpha], [beta] are what the conversion returns, [al],
    [be] the same before entries below 1e-13 are dropped. *)
Theorem C22_explicit_conversion_preserves_step {D Env : Type} (T : tableau) :
  (0 < ns T)%nat ->
  strictly_lower_triangular (ns T) (ta T) -> nonzero_subdiagonal (ns T) (ta T) (tb T) ->
  exists alpha beta al be,
    butcher_to_shuosher T = Some (alpha, beta) /\
    same_up_to_rounding (ns T) al alpha /\ same_up_to_rounding (ns T) be beta /\
    unit_row_sums (ns T) al /\
    (forall (F : Env -> (D -> R) -> D -> R) dt e u u',
       shuosher_step (ns T) al be F dt e u u' <-> explicit_step (ns T) (ta T) (tb T) F dt e u u') /\
    (nothing_tiny (ns T) al -> nothing_tiny (ns T) be ->
       unit_row_sums (ns T) alpha /\
       forall (F : Env -> (D -> R) -> D -> R) dt e u u',
         shuosher_step (ns T) alpha beta F dt e u u' <-> explicit_step (ns T) (ta T) (tb T) F dt e u u').
Proof.
  intros Hn Hlow Hsub.
  destruct (@so_explicit_step T Hlow (subdiag_butcher T Hn Hsub) D Env) as (al & be & Hso & Hrow & Hstep).
  exists (fun i j => round13 (al i j)), (fun i j => round13 (be i j)), al, be.
  split; [unfold butcher_to_shuosher; rewrite (explicit_is_implicit T Hlow), Hso; reflexivity|].
  split; [intros i j _ _; apply round13_cases|].
  split; [intros i j _ _; apply round13_cases|].
  split; [exact Hrow|]. split; [exact Hstep|].
  intros Ha Hb.
  assert (Ea : forall i j, (i <= ns T)%nat -> (j <= ns T)%nat -> al i j = round13 (al i j))
    by (intros; symmetry; apply round13_id; apply Ha; assumption).
  assert (Eb : forall i j, (i <= ns T)%nat -> (j <= ns T)%nat -> be i j = round13 (be i j))
    by (intros; symmetry; apply round13_id; apply Hb; assumption).
  split; [apply (unit_rows_ext _ al); assumption|].
  intros F dt e u u'. rewrite <- Hstep. split; apply shuosher_step_ext; intros; symmetry; auto; symmetry; auto.
Qed.

(** Diagonally implicit schemes *)
Theorem C22_implicit_conversion_preserves_step {D Env : Type} (T : tableau) :
  (0 < ns T)%nat ->
  lower_triangular (ns T) (ta T) -> (forall i, (i < ns T)%nat -> ta T i i <> 0) ->
  exists alpha beta al be,
    butcher_to_shuosher T = Some (alpha, beta) /\
    same_up_to_rounding (ns T) al alpha /\ same_up_to_rounding (ns T) be beta /\
    unit_row_sums (ns T) al /\
    (forall (F : Env -> (D -> R) -> D -> R) dt e u u',
       shuosher_implicit_step (ns T) al be F dt e u u' <-> implicit_step (ns T) (ta T) (tb T) F dt e u u') /\
    (nothing_tiny (ns T) al -> nothing_tiny (ns T) be ->
       unit_row_sums (ns T) alpha /\
       forall (F : Env -> (D -> R) -> D -> R) dt e u u',
         shuosher_implicit_step (ns T) alpha beta F dt e u u' <-> implicit_step (ns T) (ta T) (tb T) F dt e u u').
Proof.
  intros Hn Hlow Hd.
  destruct (@so_implicit_step T Hlow Hd D Env) as (al & be & Hso & Hrow & Hstep).
  assert (Hstep' : forall (F : Env -> (D -> R) -> D -> R) dt e u u',
     shuosher_implicit_step (ns T) al be F dt e u u' <-> implicit_step (ns T) (ta T) (tb T) F dt e u u').
  { intros F dt e u u'. rewrite <- Hstep. unfold shuosher_implicit_step, so_row.
    split; intros (y & Hy & Hu); exists y; (split; [intros i Hi; rewrite Hy at 1 by exact Hi|rewrite Hu at 1]);
    unfold shuosher_row; fext x; rewrite !Sum_rsum; reflexivity. }
  exists (fun i j => round13 (al i j)), (fun i j => round13 (be i j)), al, be.
  split; [unfold butcher_to_shuosher; rewrite (dirk_is_implicit T Hd Hn), Hso; reflexivity|].
  split; [intros i j _ _; apply round13_cases|].
  split; [intros i j _ _; apply round13_cases|].
  split; [exact Hrow|]. split; [exact Hstep'|].
  intros Ha Hb.
  assert (Ea : forall i j, (i <= ns T)%nat -> (j <= ns T)%nat -> al i j = round13 (al i j))
    by (intros; symmetry; apply round13_id; apply Ha; assumption).
  assert (Eb : forall i j, (i <= ns T)%nat -> (j <= ns T)%nat -> be i j = round13 (be i j))
    by (intros; symmetry; apply round13_id; apply Hb; assumption).
  split; [apply (unit_rows_ext _ al); assumption|].
  intros F dt e u u'. rewrite <- Hstep'. split; apply implicit_form_ext; intros; symmetry; auto; symmetry; auto.
Qed.

(** A zero on the sub-diagonal (explicit) makes the conversion raise
    LinAlgError; mixed zero and non-zero diagonals are not converted. *)
Theorem C22_zero_subdiagonal_raises (T : tableau) :
  strictly_lower_triangular (ns T) (ta T) ->
  (exists i, (i < ns T)%nat /\ butcher T (S i) i = 0) -> butcher_to_shuosher T = None.
Proof.
  intros Hlow (i & Hi & Hz). unfold butcher_to_shuosher. rewrite (explicit_is_implicit T Hlow).
  unfold so_explicit, linalg_inv.
  destruct (alln (ns T) (fun k => Rnzb (butcher T (S k) k))) eqn:E; [|reflexivity].
  rewrite alln_spec in E. specialize (E i Hi). apply Rnzb_spec in E. contradiction.
Qed.

(** The conversion of SSPRK33 gives the textbook form. *)
Lemma ssprk33_rounded : exists alpha beta,
  butcher_to_shuosher SSPRK33Tab = Some (alpha, beta) /\
  (forall i j, (i <= 3)%nat -> (j <= 3)%nat -> alpha i j = ssprk33_alpha i j) /\
  (forall i j, (i <= 3)%nat -> (j <= 3)%nat -> beta i j = ssprk33_beta i j).
Proof.
  destruct ssprk33_form as (al & be & H & Ha & Hb).
  exists (fun i j => round13 (al i j)), (fun i j => round13 (be i j)).
  split; [unfold butcher_to_shuosher; rewrite (explicit_is_implicit _ ssprk33_explicit), H; reflexivity|].
  assert (Ht : / 10 ^ 13 <= 1/4) by lra.
  split; intros i j Hi Hj.
  - rewrite Ha by assumption. apply round13_id. cases4 i j Hi Hj; cbn; try (left; reflexivity); right; rewrite Rabs_pos_eq; lra.
  - rewrite Hb by assumption. apply round13_id. cases4 i j Hi Hj; cbn; try (left; reflexivity); right; rewrite Rabs_pos_eq; lra.
Qed.

Example C22_ssprk33 : exists alpha beta,
  butcher_to_shuosher SSPRK33Tab = Some (alpha, beta) /\
  alpha 2%nat 0%nat = 3/4 /\ alpha 2%nat 1%nat = 1/4 /\ alpha 3%nat 0%nat = 1/3 /\ alpha 3%nat 1%nat = 0 /\
  alpha 3%nat 2%nat = 2/3 /\ beta 1%nat 0%nat = 1 /\ beta 2%nat 1%nat = 1/4 /\ beta 3%nat 2%nat = 2/3.
Proof.
  destruct ssprk33_rounded as (al & be & H & Ha & Hb). exists al, be. split; [exact H|].
  rewrite !Ha, !Hb by lia. cbn. repeat split; lra.
Qed.

(** the hypotheses are met, and nothing is rounded *)
Example C22_explicit_hypotheses :
  strictly_lower_triangular 3 (ta SSPRK33Tab) /\ nonzero_subdiagonal 3 (ta SSPRK33Tab) (tb SSPRK33Tab).
Proof.
  split; [exact ssprk33_explicit|]. split; [|cbn; lra].
  intros i Hi. assert (C : i = O \/ i = 1%nat) by lia. destruct C as [->| ->]; cbn; lra.
Qed.
Example C22_implicit_hypotheses :
  lower_triangular 3 (ta DIRKLSPUM2Tab) /\ (forall i, (i < 3)%nat -> ta DIRKLSPUM2Tab i i <> 0).
Proof.
  split.
  - intros i j Hi Hj Hij. destruct (lt3 i Hi) as [->|[->| ->]]; destruct (lt3 j Hj) as [->|[->| ->]]; try lia; reflexivity.
  - intros i Hi. destruct (lt3 i Hi) as [->|[->| ->]]; cbn; lra.
Qed.
(** an explicit scheme with a zero weight is rejected *)
Example C22_zero_subdiagonal_example :
  butcher_to_shuosher (tab [[0; 0]; [1/2; 0]] [1; 0] [0; 1/2]) = None.
Proof.
  apply C22_zero_subdiagonal_raises.
  - intros i j Hi Hj Hij. cbn in Hi, Hj. assert (Ci : i = O \/ i = 1%nat) by lia. assert (Cj : j = O \/ j = 1%nat) by lia.
    destruct Ci as [->| ->]; destruct Cj as [->| ->]; try lia; reflexivity.
  - exists 1%nat. split; [cbn; lia|reflexivity].
Qed.

(** ** C23: explicit integrators compute the Butcher step *)

(** Butcher form.  The step starts from the saved copy of the solution (the
    current solution at the first call); stage [i] sees the forcings updated
    to t + c_0 dt, ..., t + c_i dt in this order. *)
Theorem C23_butcher_form_step {D Env : Type} (T : tableau) (F : Env -> (D -> R) -> D -> R)
    (dt : R) (uf : option (R -> Env -> Env)) (t : R) (s : st) : dt <> 0 ->
  let s' := erk_advance T F true dt uf t s in
  explicit_step (ns T) (ta T) (tb T) F dt
    (fun i => forced uf (abscissae t dt (tc T) (S i)) (env s))
    (if ini s then sol_old s else sol s) (sol s') /\
  env s' = forced uf (abscissae t dt (tc T) (ns T)) (env s).
Proof.
  intros Hdt s'. destruct (erk_advance_spec T F dt uf t s Hdt) as (H1 & H2 & _). split; assumption.
Qed.

(** Shu-Osher form, with the arrays returned by the conversion *)
Theorem C23_shuosher_form_step {D Env : Type} (T : tableau) alpha beta (F : Env -> (D -> R) -> D -> R)
    (dt : R) (uf : option (R -> Env -> Env)) (t : R) (s : st) :
  (0 < ns T)%nat ->
  strictly_lower_triangular (ns T) (ta T) -> nonzero_subdiagonal (ns T) (ta T) (tb T) ->
  butcher_to_shuosher T = Some (alpha, beta) ->
  (forall al be, so_explicit T = Some (al, be) -> nothing_tiny (ns T) al /\ nothing_tiny (ns T) be) ->
  let s' := so_advance (ns T) alpha beta (tc T) F true dt uf t s in
  explicit_step (ns T) (ta T) (tb T) F dt
    (fun i => forced uf (abscissae t dt (tc T) (S i)) (env s)) (sol s) (sol s') /\
  env s' = forced uf (abscissae t dt (tc T) (ns T)) (env s).
Proof.
  intros Hn Hlow Hsub Hc Ht s'.
  destruct (so_explicit_spec T Hlow (subdiag_butcher T Hn Hsub)) as (al & be & Hso & Hrow & Hup & Hrel & Hbe & _).
  destruct (Ht al be Hso) as [Ta Tb].
  unfold butcher_to_shuosher in Hc. rewrite (explicit_is_implicit T Hlow), Hso in Hc. injection Hc as Ea Eb.
  assert (Xa : forall i j, (i <= ns T)%nat -> (j <= ns T)%nat -> alpha i j = al i j)
    by (intros; subst alpha; apply round13_id; apply Ta; assumption).
  assert (Xb : forall i j, (i <= ns T)%nat -> (j <= ns T)%nat -> beta i j = be i j)
    by (intros; subst beta; apply round13_id; apply Tb; assumption).
  destruct (so_advance_spec (ns T) alpha beta (tc T) F dt uf t s) as [H1 H2].
  { intros i j Hi Hj. rewrite Xb, Hbe by lia. replace (Nat.eqb j i) with false; [reflexivity|].
    symmetry; apply Nat.eqb_neq; lia. }
  split; [|exact H2].
  destruct (@so_explicit_step T Hlow (subdiag_butcher T Hn Hsub) D Env) as (al' & be' & Hso' & _ & Hstep).
  rewrite Hso in Hso'. injection Hso' as <- <-.
  apply Hstep. apply (shuosher_step_ext _ alpha beta al be); assumption.
Qed.

(** The step is determined by these equations. *)
Theorem C23_step_unique {D Env : Type} n a b (F : Env -> (D -> R) -> D -> R) dt e u u1 u2 :
  explicit_step n a b F dt e u u1 -> explicit_step n a b F dt e u u2 -> u1 = u2.
Proof.
  intros (k1 & Hk1 & ->) (k2 & Hk2 & ->).
  assert (H : forall i, (i < n)%nat -> k1 i = k2 i).
  { intros i. induction i as [i IH] using lt_wf_ind. intros Hi.
    rewrite Hk1, Hk2 by exact Hi. f_equal. apply along_ext. intros j Hj. apply IH; lia. }
  apply along_ext. exact H.
Qed.

(** Forcings are updated to t + c_i dt, in stage order, once each: a callback
    that records its argument sees exactly the abscissae. *)
Theorem C23_forcing_times {D : Type} (T : tableau) (F : list R -> (D -> R) -> D -> R) alpha beta
    (dt t : R) (s : st) : dt <> 0 ->
  env (erk_advance T F true dt (Some (fun t log => log ++ [t])) t s)
    = env s ++ map (fun i => t + tc T i * dt) (seq 0 (ns T)) /\
  ((forall i j, (i < ns T)%nat -> (j < i)%nat -> beta (S i) j = 0) ->
   env (so_advance (ns T) alpha beta (tc T) F true dt (Some (fun t log => log ++ [t])) t s)
    = env s ++ map (fun i => t + tc T i * dt) (seq 0 (ns T))).
Proof.
  assert (L : forall l (e : list R), fold_left (fun e t => e ++ [t]) l e = e ++ l).
  { induction l as [|a l IH]; intros e; simpl; [rewrite app_nil_r; reflexivity|].
    rewrite IH, <- app_assoc. reflexivity. }
  intros Hdt. split.
  - destruct (erk_advance_spec T F dt (Some (fun t log => log ++ [t])) t s Hdt) as (_ & H & _).
    rewrite H. cbn [forced]. rewrite L. reflexivity.
  - intros Hb. destruct (so_advance_spec (ns T) alpha beta (tc T) F dt (Some (fun t log => log ++ [t])) t s Hb) as [_ H].
    rewrite H. cbn [forced]. rewrite L. reflexivity.
Qed.

(** Without any terms of the selected kind the solution is left alone. *)
Theorem C23_no_terms {D Env : Type} (T : tableau) alpha beta (F : Env -> (D -> R) -> D -> R)
    (dt : R) (uf : option (R -> Env -> Env)) (t : R) (s : st) :
  sol (erk_advance T F false dt uf t s) = (if ini s then sol_old s else sol s) /\
  so_advance (ns T) alpha beta (tc T) F false dt uf t s = s.
Proof.
  split.
  - apply (erk_trivial T F dt uf t s).
  - unfold so_advance. generalize (ns T) at 1 as m. induction m; [reflexivity|]. cbn [for_range]. rewrite IHm. reflexivity.
Qed.

(** SSPRK33 as shipped, applied to u' = -u with dt = 1/2, u = 1:
    1 - 1/2 + 1/8 - 1/48 = 29/48 *)
Example C23_ssprk33_value : exists alpha beta,
  butcher_to_shuosher SSPRK33Tab = Some (alpha, beta) /\
  sol (so_advance 3 alpha beta (tc SSPRK33Tab) (fun (_ : unit) (u : unit -> R) x => - u x) true (1/2) None 0
        (mk_st (fun _ => 1) (fun _ => 0) (fun _ _ => 0) (fun _ _ => 0) false tt)) tt = 29/48.
Proof.
  destruct ssprk33_rounded as (al & be & H & Ha & Hb). exists al, be. split; [exact H|].
  cbv -[Rplus Rmult Rinv Ropp Rminus Rdiv IZR]. rewrite !Ha, !Hb by lia.
  cbv -[Rplus Rmult Rinv Ropp Rminus Rdiv IZR]. field.
Qed.
(** the hypotheses of the Shu-Osher theorem hold for it *)
Example C23_ssprk33_hypotheses :
  strictly_lower_triangular 3 (ta SSPRK33Tab) /\ nonzero_subdiagonal 3 (ta SSPRK33Tab) (tb SSPRK33Tab) /\
  (forall al be, so_explicit SSPRK33Tab = Some (al, be) -> nothing_tiny 3 al /\ nothing_tiny 3 be).
Proof.
  split; [apply C22_explicit_hypotheses|]. split; [apply C22_explicit_hypotheses|].
  intros al be E. destruct ssprk33_form as (al' & be' & H & Ha & Hb). rewrite H in E. injection E as <- <-.
  assert (Ht : / 10 ^ 13 <= 1/4) by lra.
  split; intros i j Hi Hj; [rewrite Ha by assumption|rewrite Hb by assumption];
    cases4 i j Hi Hj; cbn; try (left; reflexivity); right; rewrite Rabs_pos_eq; lra.
Qed.

(** ** C24: implicit integrators *)

(** Tendency form: the stage equations are solved with the second argument of
    A(w) u frozen: at the start value with the semi-implicit option, otherwise
    at the value of the previous stage. *)
Theorem C24_tendency_form_step {D Env : Type} (T : tableau) (G : Env -> (D -> R) -> (D -> R) -> D -> R)
    solve (semi : bool) (dt : R) (uf : option (R -> Env -> Env)) (t : R) (s : st) :
  (0 < ns T)%nat -> exact_solver solve ->
  (forall i e (base w : D -> R), (i < ns T)%nat ->
     exists k, k = G e (fun x => base x + dt * ta T i i * k x) w) ->
  let s' := dirk_advance T G solve semi dt uf t s in
  linearised_step (ns T) (ta T) (tb T) G dt
    (fun i => forced uf (abscissae t dt (tc T) (S i)) (env s))
    (fun i k => if semi then sol s else previous_stage (sol s) dt (ta T) i k)
    (sol s) (sol s') /\
  env s' = forced uf (abscissae t dt (tc T) (ns T)) (env s).
Proof.
  intros Hn Hs Hsol s'. destruct (dirk_advance_spec T G solve semi dt uf t Hs Hsol s Hn) as (H1 & H2 & _).
  split; assumption.
Qed.

(** For terms that do not depend on the lagged argument this is the implicit
    Runge-Kutta step. *)
Theorem C24_tendency_form_implicit {D Env : Type} (T : tableau) (F : Env -> (D -> R) -> D -> R)
    solve (semi : bool) (dt : R) (uf : option (R -> Env -> Env)) (t : R) (s : st) :
  (0 < ns T)%nat -> exact_solver solve ->
  (forall i e (base : D -> R), (i < ns T)%nat ->
     exists k, k = F e (fun x => base x + dt * ta T i i * k x)) ->
  let s' := dirk_advance T (fun e u _ => F e u) solve semi dt uf t s in
  implicit_step (ns T) (ta T) (tb T) F dt
    (fun i => forced uf (abscissae t dt (tc T) (S i)) (env s)) (sol s) (sol s').
Proof.
  intros Hn Hs Hsol s'.
  destruct (dirk_advance_spec T (fun e u _ => F e u) solve semi dt uf t Hs) with (s := s) as (H1 & _).
  - intros i e base w Hi. apply Hsol. exact Hi.
  - exact Hn.
  - exact H1.
Qed.

(** A solver that finds roots exists (so the hypothesis is not vacuous). *)
Lemma exact_solver_exists {D : Type} : exists solve : ((D -> R) -> D -> R) -> (D -> R) -> D -> R, exact_solver solve.
Proof.
  assert (H : forall rg : ((D -> R) -> D -> R) * (D -> R), exists y : D -> R,
     (exists k, forall x, fst rg k x = 0) -> forall x, fst rg y x = 0).
  { intros [r g]. destruct (classic (exists k, forall x, r k x = 0)) as [[k Hk]|Hn].
    - exists k. intros _. exact Hk.
    - exists g. intros Hx. contradiction. }
  destruct (functional_choice _ H) as [f Hf].
  exists (fun r g => f (r, g)). intros r g Hr x. apply (Hf (r, g)). exact Hr.
Qed.

(** Refuted for quasi-linear terms A(u) u without the semi-implicit option:
    the tendency form linearises around the previous stage, so Backward Euler
    does not solve the implicit equation.  (dirk_residual passes the solution
    Function, not the stage expression, as the second argument.) *)
Theorem C24_tendency_form_nonlinear_refuted :
  exists (G : unit -> (unit -> R) -> (unit -> R) -> unit -> R) (s : st),
    (forall i e (base w : unit -> R), (i < 1)%nat ->
       exists k, k = G e (fun x => base x + 1 * ta BackwardEulerTab i i * k x) w) /\
    forall solve, exact_solver solve ->
      ~ implicit_step 1 (ta BackwardEulerTab) (tb BackwardEulerTab) (fun e u => G e u u) 1 (fun _ => tt)
          (sol s) (sol (dirk_advance BackwardEulerTab G solve false 1 None 0 s)).
Proof.
  set (G := fun (_ : unit) (u w : unit -> R) (x : unit) => - (w x * w x * u x)).
  exists G, (mk_st (fun _ => 1) (fun _ => 0) (fun _ _ => 0) (fun _ _ => 0) false tt).
  assert (Hsol : forall i e (base w : unit -> R), (i < 1)%nat ->
       exists k, k = G e (fun x => base x + 1 * ta BackwardEulerTab i i * k x) w).
  { intros i e base w Hi. replace i with O by lia.
    exists (fun x => - (w x * w x * base x) / (1 + w x * w x)).
    fext x. unfold G. cbn. assert (H : 0 <= w x * w x) by (apply Rle_0_sqr). field. lra. }
  split; [exact Hsol|]. intros solve Hs Hbad.
  destruct (C24_tendency_form_step BackwardEulerTab G solve false 1 None 0
      (mk_st (fun _ => 1) (fun _ => 0) (fun _ _ => 0) (fun _ _ => 0) false tt)) as [(k & Hk & Hu) _].
  - cbn; lia.
  - exact Hs.
  - exact Hsol.
  - destruct Hbad as (k' & Hk' & Hu').
    rewrite Hu in Hu'. specialize (Hk O). specialize (Hk' O).
    assert (E1 := f_equal (fun f => f tt) (Hk ltac:(cbn; lia))).
    assert (E2 := f_equal (fun f => f tt) (Hk' ltac:(cbn; lia))).
    assert (E3 := f_equal (fun f => f tt) Hu').
    unfold along, Sum in E1, E2, E3. unfold G in E1, E2. cbn in E1, E2, E3.
    assert (K1 : k O tt = - (1/2)) by lra.
    assert (K2 : k' O tt = - (1/2)) by lra.
    rewrite K2 in E2. lra.
Qed.

(** Solution form, stiffly accurate tableaux, identity mass term: the implicit
    step (or its semi-implicit linearisation). *)
Theorem C24_solution_form_step {D Env : Type} (T : tableau) (G : Env -> (D -> R) -> (D -> R) -> D -> R)
    solve (semi : bool) (dt : R) (uf : option (R -> Env -> Env)) (t : R) (s : st) :
  (0 < ns T)%nat -> exact_solver solve -> dt <> 0 ->
  (forall i, (i < ns T)%nat -> ta T i i <> 0) -> stiffly_accurate (ns T) (ta T) (tb T) ->
  (forall i (e : Env) (base u : D -> R), (i < ns T)%nat ->
     exists y : D -> R, forall x, y x = base x + dt * ta T i i * G e y (if semi then u else y) x) ->
  let s' := uform_advance T G solve semi dt uf (fun u : D -> R => u) t s in
  let e := fun i => forced uf (abscissae t dt (tc T) (S i)) (env s) in
  (semi = false ->
     implicit_step (ns T) (ta T) (tb T) (fun e u => G e u u) dt e (sol s) (sol s')) /\
  (semi = true ->
     linearised_step (ns T) (ta T) (tb T) G dt e (fun _ _ => sol s) (sol s) (sol s')) /\
  env s' = forced uf (abscissae t dt (tc T) (ns T)) (env s).
Proof.
  intros Hn Hs Hdt Hd Hst Hsol s' e.
  destruct (uform_advance_spec T G solve semi dt uf (fun u => u) t Hs Hdt Hd Hsol s Hn) as ((y & k & Hk & Hu) & He & _).
  fold s' in Hu, He.
  assert (Hlast : sol s' = along (sol s) dt (ns T) (tb T) k).
  { rewrite Hu. destruct (Hk (ns T - 1)%nat) as [Hy _]; [lia|]. rewrite Hy.
    replace (S (ns T - 1)) with (ns T) by lia. rewrite !along_rsum. fext x. do 2 f_equal.
    apply rsum_ext. intros j Hj. rewrite Hst by exact Hj. reflexivity. }
  split; [|split; [|exact He]]; intros E; exists k; (split; [|exact Hlast]); intros i Hi;
    destruct (Hk i Hi) as [Hy Hki]; rewrite E in Hki; rewrite Hki at 1; rewrite Hy; reflexivity.
Qed.

(** the shipped solution-form tableaux are stiffly accurate with non-zero diagonal *)
Lemma gamma22_pos : 0 < gamma22.
Proof.
  unfold gamma22. assert (sqrt 2 < 2). { rewrite <- (sqrt_Rsqr 2) at 2 by lra. apply sqrt_lt_1; unfold Rsqr; lra. } lra.
Qed.

Theorem C24_solution_form_tableaux :
  Forall (fun T => (0 < ns T)%nat /\ stiffly_accurate (ns T) (ta T) (tb T) /\
                   forall i, (i < ns T)%nat -> ta T i i <> 0)
    [BackwardEulerTab; DIRK22Tab; DIRK33Tab].
Proof.
  assert (G := gamma22_pos). assert (G3 : 0 < gamma33) by (unfold gamma33; lra).
  apply Forall_cons; [split; [cbn; lia|split]|apply Forall_cons; [split; [cbn; lia|split]|apply Forall_cons; [split; [cbn; lia|split]|apply Forall_nil]]].
  - intros j Hj. cbn in Hj. replace j with O by lia. reflexivity.
  - intros i Hi. cbn in Hi. replace i with O by lia. cbn. lra.
  - intros j Hj. cbn in Hj. assert (C : j = O \/ j = 1%nat) by lia. destruct C as [->| ->]; reflexivity.
  - intros i Hi. cbn in Hi. assert (C : i = O \/ i = 1%nat) by lia. destruct C as [->| ->]; cbn; lra.
  - intros j Hj. destruct (lt3 j Hj) as [->|[->| ->]]; reflexivity.
  - intros i Hi. destruct (lt3 i Hi) as [->|[->| ->]]; cbn [DIRK33Tab tab ta nth]; lra.
Qed.

(** If each stage equation has one root only, the implicit step is unique. *)
Theorem C24_step_unique {D Env : Type} n a b (F : Env -> (D -> R) -> D -> R) dt (e : nat -> Env) u u1 u2 :
  (forall i (base k k' : D -> R), (i < n)%nat ->
     k = F (e i) (fun x => base x + dt * a i i * k x) ->
     k' = F (e i) (fun x => base x + dt * a i i * k' x) -> k = k') ->
  implicit_step n a b F dt e u u1 -> implicit_step n a b F dt e u u2 -> u1 = u2.
Proof.
  intros Huniq (k1 & Hk1 & ->) (k2 & Hk2 & ->).
  assert (H : forall i, (i < n)%nat -> k1 i = k2 i).
  { intros i. induction i as [i IH] using lt_wf_ind. intros Hi.
    assert (A : forall k, (forall j, (j < i)%nat -> k j = k1 j) ->
       along u dt (S i) (a i) k = fun x => along u dt i (a i) k1 x + dt * a i i * k i x).
    { intros k Hk. rewrite !along_rsum. fext x. cbn [rsum].
      rewrite (rsum_ext i (fun j => a i j * k j x) (fun j => a i j * k1 j x)); [ring|].
      intros j Hj. rewrite Hk by exact Hj. reflexivity. }
    apply (Huniq i (along u dt i (a i) k1)); [exact Hi| |].
    - rewrite (Hk1 i Hi) at 1. rewrite A by reflexivity. reflexivity.
    - rewrite (Hk2 i Hi) at 1. rewrite A; [reflexivity|]. intros j Hj. symmetry. apply IH; lia. }
  apply along_ext. exact H.
Qed.

(** hypotheses: linear decay, any dt >= 0 *)
Example C24_hypotheses (dt : R) (Hdt : 0 <= dt) : exists solve : ((unit -> R) -> unit -> R) -> (unit -> R) -> unit -> R,
  exact_solver solve /\
  forall i (e : unit) (base : unit -> R), (i < 2)%nat ->
    exists k, k = (fun (_ : unit) (u : unit -> R) x => - u x) e (fun x => base x + dt * ta DIRK22Tab i i * k x).
Proof.
  destruct (@exact_solver_exists unit) as [solve Hs]. exists solve. split; [exact Hs|].
  intros i _ base Hi. assert (G := gamma22_pos).
  assert (C : ta DIRK22Tab i i = gamma22) by (assert (C : i = O \/ i = 1%nat) by lia; destruct C as [->| ->]; reflexivity).
  rewrite C. assert (0 <= dt * gamma22) by (apply Rmult_le_pos; lra).
  exists (fun x => - base x / (1 + dt * gamma22)). fext x. field. lra.
Qed.

(** ** C25: order conditions *)

Ltac unroll := rewrite ?Sum_rsum; cbv -[Rplus Rmult Rinv Ropp Rminus Rdiv IZR sqrt]; try field.
Ltac row_tac := 
  let i := fresh in let H := fresh in
  intros i H; cbn in H;
  destruct i as [|[|[|[|i]]]]; try lia; unroll.
Ltac low_tac :=
  let i := fresh in let j := fresh in intros i j ? ? ?;
  cbn in *; destruct i as [|[|[|[|i]]]]; destruct j as [|[|[|[|j]]]]; try lia; reflexivity.
Ltac o1 := unfold order1; unroll.
Ltac o2 := split; [o1|unroll].
Ltac o3 := split; [o2|split; [unroll|unroll]].

Definition all_tableaux : list tableau :=
  [ForwardEulerTab; BackwardEulerTab; ImplicitMidpointTab; CrankNicolsonTab; DIRK22Tab; DIRK23Tab;
   DIRK33Tab; DIRK43Tab; DIRKLSPUM2Tab; DIRKLPUM2Tab; SSPRK33Tab; ERKLSPUM2Tab; ERKLPUM2Tab;
   ERKMidpointTab; ESDIRKMidpointTab; ESDIRKTrapezoidTab].

(** Every shipped tableau is lower triangular and c are the row sums of a. *)
Theorem C25_consistent :
  Forall (fun T => lower_triangular (ns T) (ta T) /\ row_sums (ns T) (ta T) (tc T)) all_tableaux.
Proof.
  repeat (apply Forall_cons; [split; [low_tac|row_tac]|]); apply Forall_nil.
Qed.

Lemma sqrt2_sq : sqrt 2 ^ 2 = 2. Proof. apply pow2_sqrt. lra. Qed.
Lemma sqrt3_sq : sqrt 3 ^ 2 = 3. Proof. apply pow2_sqrt. lra. Qed.

Theorem C25_first_order : Forall (fun T => order1 (ns T) (tb T)) all_tableaux.
Proof. repeat (apply Forall_cons; [o1|]); apply Forall_nil. Qed.

Theorem C25_second_order :
  Forall (fun T => order2 (ns T) (tb T) (tc T))
    [ImplicitMidpointTab; CrankNicolsonTab; DIRK22Tab; DIRK23Tab; DIRK43Tab; DIRKLSPUM2Tab; DIRKLPUM2Tab;
     SSPRK33Tab; ERKLSPUM2Tab; ERKLPUM2Tab; ERKMidpointTab; ESDIRKMidpointTab; ESDIRKTrapezoidTab].
Proof.
  repeat (apply Forall_cons; [first [solve [o2] | idtac]|]); try apply Forall_nil.
  split; [o1|]. rewrite Sum_rsum.
  cbv -[Rplus Rmult Rinv Ropp Rminus Rdiv IZR sqrt].
  apply (Rmult_eq_reg_l 4); [|lra]. field_simplify.
  rewrite sqrt2_sq. lra.
Qed.

Theorem C25_third_order :
  Forall (fun T => order3 (ns T) (ta T) (tb T) (tc T)) [DIRK23Tab; DIRK43Tab; SSPRK33Tab].
Proof.
  apply Forall_cons.
  { split; [o2|]. split; rewrite !Sum_rsum; cbv -[Rplus Rmult Rinv Ropp Rminus Rdiv IZR sqrt];
      apply (Rmult_eq_reg_l 72); try lra; field_simplify;
      rewrite sqrt3_sq; lra. }
  repeat (apply Forall_cons; [o3|]); apply Forall_nil.
Qed.

(** DIRK33 with its ten-digit gamma: the conditions hold to 1e-11 *)
Theorem C25_dirk33_third_order_1e11 :
  let T := DIRK33Tab in
  Rabs (Sum 3 (fun i => tb T i * tc T i) - 1/2) < / 10 ^ 11 /\
  Rabs (Sum 3 (fun i => tb T i * tc T i ^ 2) - 1/3) < / 10 ^ 11 /\
  Rabs (Sum 3 (fun i => tb T i * Sum 3 (fun j => ta T i j * tc T j)) - 1/6) < / 10 ^ 11.
Proof.
  assert (P : 10 ^ 11 = 100000000000) by (simpl; lra).
  rewrite P. cbn -[Rplus Rmult Rinv Ropp Rminus Rdiv IZR]. unfold b1_33, b2_33, gamma33, Sum. simpl.
  repeat split; apply Rabs_def1; lra.
Qed.

(** and not exactly *)
Theorem C25_dirk33_not_exact : ~ order2 3 (tb DIRK33Tab) (tc DIRK33Tab).
Proof.
  intros [_ H]. revert H. cbn -[Rplus Rmult Rinv Ropp Rminus Rdiv IZR]. unfold b1_33, b2_33, gamma33, Sum. simpl. lra.
Qed.

(** The pairs shipped for implicit-explicit stepping satisfy the second-order
    coupling conditions. *)
Theorem C25_imex_coupling :
  Forall (fun p => Sum (ns (fst p)) (fun i => tb (fst p) i * tc (snd p) i) = 1/2 /\
                   Sum (ns (fst p)) (fun i => tb (snd p) i * tc (fst p) i) = 1/2)
    [(DIRKLSPUM2Tab, ERKLSPUM2Tab); (DIRKLPUM2Tab, ERKLPUM2Tab); (ESDIRKMidpointTab, ERKMidpointTab)].
Proof. repeat (apply Forall_cons; [split; unroll|]); apply Forall_nil. Qed.

(** ** C26: implicit-explicit integrator *)

Theorem C26_imex_step {D Env : Type} (TI TE : tableau) (GI : Env -> (D -> R) -> (D -> R) -> D -> R)
    (FE : Env -> (D -> R) -> D -> R) solve semi (dt : R) (uf : option (R -> Env -> Env)) (t : R) (s : imst) :
  exact_solver solve -> dt <> 0 -> ns TI = ns TE ->
  (forall i e (base w : D -> R), (i < ns TI)%nat ->
     exists k, k = GI e (fun x => base x + dt * ta TI i i * k x) w) ->
  sol (dk s) = sol (ek s) -> env (dk s) = env (ek s) ->
  let s' := imex_advance TI TE GI FE true solve semi dt uf t s in
  imex_step (ns TE) (ta TI) (tb TI) (ta TE) (tb TE) GI FE dt
    (fun i => forced uf (abscissae2 t dt (tc TI) (tc TE) i ++ [t + tc TI i * dt]) (env (ek s)))
    (fun i => forced uf (abscissae2 t dt (tc TI) (tc TE) (S i)) (env (ek s)))
    (sol_old (ek s)) (sol (ek s')) /\
  env (ek s') = forced uf (abscissae2 t dt (tc TI) (tc TE) (ns TE)) (env (ek s)).
Proof.
  intros Hs Hdt Hns Hsol H1 H2 s'.
  destruct (imex_advance_spec TI TE GI FE solve semi dt uf t Hs Hsol Hns Hdt s (conj H1 H2)) as (A & B & _).
  split; [|exact B]. exact A.
Qed.

(** After [initialize(v)] the first step starts from v. *)
Theorem C26_imex_initialized {D Env : Type} (v : D -> R) (s : @imst D Env) :
  sol_old (ek (imex_initialize v s)) = v.
Proof. reflexivity. Qed.

(** forcing times: both abscissae of each stage, the implicit one first *)
Theorem C26_forcing_times {D : Type} (TI TE : tableau) (GI : list R -> (D -> R) -> (D -> R) -> D -> R)
    (FE : list R -> (D -> R) -> D -> R) solve semi (dt t : R) (s : imst) :
  exact_solver solve -> dt <> 0 -> ns TI = ns TE ->
  (forall i e (base w : D -> R), (i < ns TI)%nat ->
     exists k, k = GI e (fun x => base x + dt * ta TI i i * k x) w) ->
  sol (dk s) = sol (ek s) -> env (dk s) = env (ek s) ->
  env (ek (imex_advance TI TE GI FE true solve semi dt (Some (fun t log => log ++ [t])) t s))
  = env (ek s) ++ flat_map (fun i => [t + tc TI i * dt; t + tc TE i * dt]) (seq 0 (ns TE)).
Proof.
  assert (L : forall l (e : list R), fold_left (fun e t => e ++ [t]) l e = e ++ l).
  { induction l as [|a l IH]; intros e; simpl; [rewrite app_nil_r; reflexivity|].
    rewrite IH, <- app_assoc. reflexivity. }
  intros Hs Hdt Hns Hsol H1 H2.
  destruct (C26_imex_step TI TE GI FE solve semi dt (Some (fun t log => log ++ [t])) t s Hs Hdt Hns Hsol H1 H2) as [_ H].
  rewrite H. cbn [forced]. rewrite L. reflexivity.
Qed.

(** hypotheses: implicit decay, explicit growth, LSPUM2 pair *)
Example C26_hypotheses : exists solve : ((unit -> R) -> unit -> R) -> (unit -> R) -> unit -> R,
  exact_solver solve /\ ns DIRKLSPUM2Tab = ns ERKLSPUM2Tab /\
  forall i (e : unit) (base w : unit -> R), (i < 3)%nat ->
    exists k, k = (fun (_ : unit) (u _ : unit -> R) x => - u x) e (fun x => base x + 1 * ta DIRKLSPUM2Tab i i * k x) w.
Proof.
  destruct (@exact_solver_exists unit) as [solve Hs]. exists solve. split; [exact Hs|]. split; [reflexivity|].
  intros i _ base w Hi.
  exists (fun x => - base x / (1 + 2/11)). fext x. destruct (lt3 i Hi) as [->|[->| ->]]; cbn; field.
Qed.

(** ** C28: strong stability preservation *)

(** General: non-negative Shu-Osher coefficients and a step no longer than
    alpha/beta times the forward Euler one. *)
Theorem C28_convex_constraints {D Env : Type} n alpha beta (c : nat -> R) (F : Env -> (D -> R) -> D -> R)
    dt dt0 uf t (K : (D -> R) -> Prop) (s : st) :
  convex K -> 0 <= dt ->
  (forall i j, (i < n)%nat -> (j <= i)%nat -> 0 <= alpha (S i) j) ->
  (forall i, (i < n)%nat -> Sum (S i) (alpha (S i)) = 1) ->
  (forall i j, (i < n)%nat -> (j < i)%nat -> beta (S i) j = 0) ->
  (forall i, (i < n)%nat -> 0 < alpha (S i) i /\ 0 <= beta (S i) i /\ beta (S i) i * dt <= alpha (S i) i * dt0) ->
  (forall e v, K v -> K (fun x => v x + dt0 * F e v x)) ->
  K (sol s) -> K (sol (so_advance n alpha beta c F true dt uf t s)).
Proof.
  intros HK Hdt Ha Hr Hb0 Hb HE Hs.
  destruct (so_advance_spec n alpha beta c F dt uf t s Hb0) as [H _].
  revert H Hs. apply (shuosher_ssp n alpha beta F dt dt0 _ K); try assumption.
  - intros i Hi. rewrite <- Sum_rsum. apply Hr. exact Hi.
  - intros i Hi. destruct (Hb i Hi) as (_ & H2 & H3). split; assumption.
  - intros i Hi. apply Hb. exact Hi.
  - intros i v _ Hv. apply HE. exact Hv.
Qed.

(** SSPRK33 as shipped keeps any convex constraint that forward Euler keeps
    with the same time step. *)
Theorem C28_ssprk33 {D Env : Type} alpha beta (F : Env -> (D -> R) -> D -> R) dt uf t
    (K : (D -> R) -> Prop) (s : st) :
  butcher_to_shuosher SSPRK33Tab = Some (alpha, beta) ->
  convex K -> 0 <= dt ->
  (forall e v, K v -> K (fun x => v x + dt * F e v x)) ->
  K (sol s) -> K (sol (so_advance (ns SSPRK33Tab) alpha beta (tc SSPRK33Tab) F true dt uf t s)).
Proof.
  intros Hc HK Hdt HE Hs.
  destruct ssprk33_rounded as (al & be & H & Ha & Hb). rewrite H in Hc. injection Hc as <- <-.
  apply (C28_convex_constraints 3 al be (tc SSPRK33Tab) F dt dt uf t K s); try assumption.
  - intros i j Hi Hj. rewrite Ha by lia. destruct (lt3 i Hi) as [->|[->| ->]];
      destruct j as [|[|[|j]]]; try lia; cbn; lra.
  - intros i Hi. destruct (lt3 i Hi) as [->|[->| ->]]; unfold Sum; simpl; rewrite !Ha by lia; cbn; lra.
  - intros i j Hi Hj. rewrite Hb by lia. destruct (lt3 i Hi) as [->|[->| ->]];
      destruct j as [|[|[|j]]]; try lia; cbn; lra.
  - intros i Hi. rewrite Ha, Hb by lia. destruct (lt3 i Hi) as [->|[->| ->]]; cbn; lra.
Qed.

(** any number of steps, with limiters that keep the constraint in between *)
Theorem C28_ssprk33_history {D Env : Type} alpha beta (F : Env -> (D -> R) -> D -> R) dt uf
    (K : (D -> R) -> Prop) (limit : (D -> R) -> D -> R) (times : list R) (s : st) :
  butcher_to_shuosher SSPRK33Tab = Some (alpha, beta) ->
  convex K -> 0 <= dt ->
  (forall e v, K v -> K (fun x => v x + dt * F e v x)) ->
  (forall v, K v -> K (limit v)) ->
  K (sol s) ->
  K (sol (fold_left (fun s t =>
       let s' := so_advance (ns SSPRK33Tab) alpha beta (tc SSPRK33Tab) F true dt uf t s in
       set_sol (limit (sol s')) s') times s)).
Proof.
  intros Hc HK Hdt HE HL. revert s. induction times as [|t times IH]; intros s Hs; [exact Hs|].
  cbn [fold_left]. apply IH. cbn [sol set_sol]. apply HL.
  apply C28_ssprk33; assumption.
Qed.

(** The Butcher-form schemes with the advertised cfl_coeff: forward Euler
    (1.0), ERKLSPUM2 (1.2) and ERKLPUM2 (2.0). *)
Lemma ssp_butcher {D Env : Type} T alpha beta (F : Env -> (D -> R) -> D -> R) dt dt0 e K u u' :
  convex K -> 0 <= dt ->
  (forall i, (i < ns T)%nat -> rsum (S i) (alpha (S i)) = 1) ->
  (forall i j, (i < ns T)%nat -> (j <= i)%nat ->
     beta (S i) j = butcher T (S i) j - rsum (S i) (fun l => alpha (S i) l * butcher T l j)) ->
  (forall i j, (i <= ns T)%nat -> (i <= j)%nat -> (j < ns T)%nat -> butcher T i j = 0) ->
  (forall i j, (i < ns T)%nat -> (j <= i)%nat -> 0 <= alpha (S i) j) ->
  (forall i j, (i < ns T)%nat -> (j < i)%nat -> beta (S i) j = 0) ->
  (forall i, (i < ns T)%nat -> 0 <= beta (S i) i /\ beta (S i) i * dt <= alpha (S i) i * dt0) ->
  (forall i, (i < ns T)%nat -> 0 < alpha (S i) i) ->
  (forall i v, (i < ns T)%nat -> K v -> K (fun x => v x + dt0 * F (e i) v x)) ->
  explicit_step (ns T) (ta T) (tb T) F dt e u u' -> K u -> K u'.
Proof.
  intros HK Hdt Hr Hrel Hlow Ha Hb0 Hb Hap HE Hst Hu.
  apply (shuosher_ssp (ns T) alpha beta F dt dt0 e K u u'); try assumption.
  apply (shuosher_explicit T alpha beta F dt e u u'); assumption.
Qed.

Theorem C28_butcher_form_schemes {D Env : Type} T cfl (F : Env -> (D -> R) -> D -> R) dt dt0 uf t
    (K : (D -> R) -> Prop) (s : st) :
  In (T, cfl) [(ForwardEulerTab, 1); (ERKLSPUM2Tab, 12/10); (ERKLPUM2Tab, 2)] ->
  convex K -> 0 < dt -> dt <= cfl * dt0 ->
  (forall e v, K v -> K (fun x => v x + dt0 * F e v x)) ->
  K (if ini s then sol_old s else sol s) -> K (sol (erk_advance T F true dt uf t s)).
Proof.
  intros HT HK Hdt Hcfl HE Hs.
  destruct (C23_butcher_form_step T F dt uf t s) as [H _]; [lra|].
  revert H Hs. cbn [In] in HT. destruct HT as [E|[E|[E|[]]]]; inversion E; subst T cfl; clear E.
  - apply (ssp_butcher ForwardEulerTab (lmat [[1]; [1]]) (lmat [[0]; [1]]) F dt dt0 _ K); try assumption; try lra.
    + intros [|i] Hi; cbn in Hi; [|lia]. cbn. lra.
    + intros [|i] [|j] Hi Hj; cbn in Hi; try lia. cbn. lra.
    + intros i j Hi Hj Hn. cbn in Hn. replace j with O in * by lia. replace i with O by lia. reflexivity.
    + intros [|i] [|j] Hi Hj; cbn in Hi; try lia. cbn. lra.
    + intros [|i] [|j] Hi Hj; cbn in Hi; lia.
    + intros [|i] Hi; cbn in Hi; [|lia]. cbn. lra.
    + intros [|i] Hi; cbn in Hi; [|lia]. cbn. lra.
    + intros i v _ Hv. apply HE. exact Hv.
  - apply (ssp_butcher ERKLSPUM2Tab (lmat [[1]; [1]; [9/20; 11/20]; [77/275; 78/275; 24/55]])
             (lmat [[0]; [5/6]; [0; 11/24]; [0; 0; 4/11]]) F dt dt0 _ K); try assumption; try lra.
    + intros i Hi; destruct (lt3 i Hi) as [->|[->| ->]]; cbn; lra.
    + intros i j Hi Hj; destruct (lt3 i Hi) as [->|[->| ->]]; destruct j as [|[|[|j]]]; try lia; cbn; lra.
    + intros i j Hi Hj Hn. cbn in Hn, Hi. destruct (le3 i Hi) as [->|[->|[->| ->]]]; destruct j as [|[|[|j]]]; try lia; reflexivity.
    + intros i j Hi Hj; destruct (lt3 i Hi) as [->|[->| ->]]; destruct j as [|[|[|j]]]; try lia; cbn; lra.
    + intros i j Hi Hj; destruct (lt3 i Hi) as [->|[->| ->]]; destruct j as [|[|[|j]]]; try lia; cbn; lra.
    + intros i Hi; destruct (lt3 i Hi) as [->|[->| ->]]; cbn; lra.
    + intros i Hi; destruct (lt3 i Hi) as [->|[->| ->]]; cbn; lra.
    + intros i v _ Hv. apply HE. exact Hv.
  - apply (ssp_butcher ERKLPUM2Tab (lmat [[1]; [1]; [0; 1]; [1/3; 0; 2/3]])
             (lmat [[0]; [1/2]; [0; 1/2]; [0; 0; 1/3]]) F dt dt0 _ K); try assumption; try lra.
    + intros i Hi; destruct (lt3 i Hi) as [->|[->| ->]]; cbn; lra.
    + intros i j Hi Hj; destruct (lt3 i Hi) as [->|[->| ->]]; destruct j as [|[|[|j]]]; try lia; cbn; lra.
    + intros i j Hi Hj Hn. cbn in Hn, Hi. destruct (le3 i Hi) as [->|[->|[->| ->]]]; destruct j as [|[|[|j]]]; try lia; reflexivity.
    + intros i j Hi Hj; destruct (lt3 i Hi) as [->|[->| ->]]; destruct j as [|[|[|j]]]; try lia; cbn; lra.
    + intros i j Hi Hj; destruct (lt3 i Hi) as [->|[->| ->]]; destruct j as [|[|[|j]]]; try lia; cbn; lra.
    + intros i Hi; destruct (lt3 i Hi) as [->|[->| ->]]; cbn; lra.
    + intros i Hi; destruct (lt3 i Hi) as [->|[->| ->]]; cbn; lra.
    + intros i v _ Hv. apply HE. exact Hv.
Qed.

(** Refuted for ERKMidpoint, whose cfl_coeff is also 1.0: a right-hand side for
    which forward Euler with step 1 keeps [0, 1] and the midpoint scheme with
    the same step leaves it. *)
Theorem C28_midpoint_refuted :
  exists (F : unit -> (unit -> R) -> unit -> R) (K : (unit -> R) -> Prop) (s : st),
    convex K /\ (forall e v, K v -> K (fun x => v x + 1 * F e v x)) /\ K (sol s) /\ ini s = false /\
    ~ K (sol (erk_advance ERKMidpointTab F true 1 None 0 s)).
Proof.
  set (F := fun (_ : unit) (u : unit -> R) (x : unit) => if Rle_dec (u x) (1/2) then 1/2 else -1/2).
  exists F, (fun v => 0 <= v tt <= 1), (mk_st (fun _ => 3/4) (fun _ => 0) (fun _ _ => 0) (fun _ _ => 0) false tt).
  split; [intros u v a Ha Hu Hv|split; [intros e v Hv|split; [cbn; lra|split; [reflexivity|]]]].
  - split; nra.
  - unfold F. destruct (Rle_dec (v tt) (1/2)); lra.
  - cbn. unfold vadd, vlin, vscale, F. cbn.
    destruct (Rle_dec (3/4) (1/2)); [lra|].
    destruct (Rle_dec (3/4 + (0 + 1/2 * (1 * (-1/2)))) (1/2)); [|lra].
    intros [? ?]; lra.
Qed.

(** hypotheses: positivity for decay with rate at most 1/dt *)
Example C28_hypotheses :
  convex (fun v : unit -> R => 0 <= v tt) /\
  (forall (e : unit) v, 0 <= v tt -> 0 <= (fun x => v x + 1 * ((fun (_ : unit) (u : unit -> R) x => - u x) e v x)) tt).
Proof. split; [intros u v a Ha Hu Hv; nra|intros e v Hv; lra]. Qed.

Print Assumptions C22_explicit_conversion_preserves_step.
Print Assumptions C22_implicit_conversion_preserves_step.
Print Assumptions C22_zero_subdiagonal_raises.
Print Assumptions C23_butcher_form_step.
Print Assumptions C23_shuosher_form_step.
Print Assumptions C23_step_unique.
Print Assumptions C23_forcing_times.
Print Assumptions C23_no_terms.
Print Assumptions C24_tendency_form_step.
Print Assumptions C24_tendency_form_implicit.
Print Assumptions C24_tendency_form_nonlinear_refuted.
Print Assumptions C24_solution_form_step.
Print Assumptions C24_solution_form_tableaux.
Print Assumptions C24_step_unique.
Print Assumptions C25_consistent.
Print Assumptions C25_first_order.
Print Assumptions C25_second_order.
Print Assumptions C25_third_order.
Print Assumptions C25_dirk33_third_order_1e11.
Print Assumptions C25_dirk33_not_exact.
Print Assumptions C25_imex_coupling.
Print Assumptions C26_imex_step.
Print Assumptions C26_imex_initialized.
Print Assumptions C26_forcing_times.
Print Assumptions C28_convex_constraints.
Print Assumptions C28_ssprk33.
Print Assumptions C28_ssprk33_history.
Print Assumptions C28_butcher_form_schemes.
Print Assumptions C28_midpoint_refuted.
