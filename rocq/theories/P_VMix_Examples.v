(** C87, all conditions together: there are solvers that solve, in every column. *)
From Coq Require Import Reals List Bool Arith Lia Lra ClassicalEpsilon.
From Verif Require Import Forms_Model Forms_Proofs RK_Model RK_Spec RK_Proofs P_RungeKutta TimeInt_Model P_Galerkin
  Dissip_Proofs Forms3d_Model Forms3d_Spec Galerkin3d_Model P_Galerkin3d Mom3d_Model VMix_Model VMix_Spec P_VMix P_VMix_Momentum P_VMix_Column.
Import ListNotations.
Open Scope R_scope.

Section Ex.
Variable layers : nat.
Variable h m : nat -> R.
Hypothesis Hh : forall k, 0 < h k.
Hypothesis Hm : forall k, 0 < m k.
Notation geo1 := (fun _ : unit => column layers h).
Notation menv := (menv3 (nat * bool) nat bool).

(** a solver that returns a solution of an equation whenever there is one *)
Definition some_solver (f : (nat -> R) -> nat -> R) (k0 : nat -> R) : nat -> R :=
  epsilon (inhabits k0) (fun k => forall x, f k x = 0).

Lemma some_solver_exact : exact_solver some_solver.
Proof. intros f k0 H. unfold some_solver. apply (epsilon_spec (inhabits k0) (fun k => forall x, f k x = 0)). exact H. Qed.

Notation n := (2 * (2 * layers))%nat.
Notation spacev := (fun _ : unit => dg1v layers h (1/4)).

(** the mass matrix can be inverted *)
Lemma mass_solve : exists inv : (nat -> R) -> nat -> R,
  forall b i, momentum_mass geo1 n spacev tt (inv b) i = b i.
Proof.
  pose (K0 := mk_menv3 false true true None None None None None None (fun _ _ => 0) (sigma1 h) 1 1 false None None None 0 None None None 1 None None (fun _ => None) 0
     : menv).
  destruct (C87_column_momentum layers h (1/4) K0 m Hh Hm ltac:(lra) ltac:(cbn; lra) eq_refl) as (Pp & Hi & Hv).
  assert (Onto : forall b, exists u, forall i, momentum_mass geo1 n spacev tt u i - 0 * (fun _ _ => 0) u i = b i).
  { intro b. apply (system_onto n (momentum_mass geo1 n spacev tt) (fun _ _ => 0)).
    - intros. apply mmass_linear.
    - intros. ring.
    - intros u v H i Hi2. unfold momentum_mass. rewrite (vel_ext n spacev tt u v H). apply Nat.ltb_lt in Hi2. rewrite Hi2. reflexivity.
    - reflexivity.
    - intros u i Hi2. unfold momentum_mass. destruct (Nat.ltb_spec i n); [lia|reflexivity].
    - reflexivity.
    - intros u Hu. apply Hi. rewrite work_mmass in Hu. pose proof (energy_pos geo1 tt Pp (velocity_of n spacev tt u)). unfold energy3 in *. lra.
    - intros u. unfold row_sum. rewrite rsum_zero; [lra|]. intros; ring.
    - lra. }
  exists (fun b => epsilon (inhabits b) (fun u => forall i, momentum_mass geo1 n spacev tt u i - 0 * 0 = b i)).
  intros b i. assert (Q := epsilon_spec (inhabits b) _ (Onto b)). cbv beta in Q. specialize (Q i). lra.
Qed.

(** Any drag, any wind: the hypotheses of C87_momentum_budget hold together, so the
    budget holds for this column, for every time step and every start. *)
Example C87_momentum_example : forall (K : menv) dt semi,
  m_sigv K = sigma1 h -> m_sipgv K = 1 -> buildable K -> drags K -> 0 <= dt ->
  exists solve G, msolvers geo1 n spacev solve G tt K (Some (in_layers layers m)) /\
  forall t uv dav s,
  let uv' := snd (momentum_implicit_part solve G semi dt tt K (Some (in_layers layers m)) t uv dav s) in
  let before := velocity_of n spacev tt (iadd uv dav) in
  let after := velocity_of n spacev tt (iadd uv' dav) in
  energy3 (column layers h) after + energy_between (column layers h) after before
  + 2 * dt * (viscosity_takes geo1 tt K (Some (in_layers layers m)) after + bottom_takes geo1 tt K before after + drag_takes geo1 tt K after)
  = energy3 (column layers h) before + 2 * dt * wind_gives geo1 tt K (Some (in_layers layers m)) after.
Proof.
  intros K dt semi Hsig Hsip Hb Hd Hdt. destruct mass_solve as (inv & Hinv).
  exists some_solver, (fun e u w => inv (momentum_vector geo1 n spacev (fst e) (snd e) u w)).
  assert (S : msolvers geo1 n spacev some_solver (fun e u w => inv (momentum_vector geo1 n spacev (fst e) (snd e) u w)) tt K (Some (in_layers layers m))).
  { split; [exact some_solver_exact|]. intros u w x. cbn [fst snd]. apply Hinv. }
  split; [exact S|].
  destruct (C87_column_momentum layers h (1/4) K m Hh Hm ltac:(lra) ltac:(lra) Hsig) as (Pp & Hi & Hv).
  exact (C87_momentum_budget geo1 n spacev some_solver _ semi dt tt Pp K (Some (in_layers layers m)) Hb Hi Hv Hd Hdt S).
Qed.
End Ex.
Print Assumptions C87_momentum_example.
