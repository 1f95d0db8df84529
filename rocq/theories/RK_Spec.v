(** Specification vocabulary for Runge-Kutta schemes: the textbook
    definitions, written without reference to the integrators. *)

From Coq Require Import Reals List Arith.
Import ListNotations.
Open Scope R_scope.

(** sum over j = 0 .. n-1 *)
Definition Sum (n : nat) (f : nat -> R) : R :=
  fold_right Rplus 0 (map f (seq 0 n)).

Section Steps.
Context {D Env : Type}.

(** u + h * sum_{j<n} w_j k_j *)
Definition along (u : D -> R) (h : R) (n : nat) (w : nat -> R) (k : nat -> D -> R) : D -> R :=
  fun x => u x + h * Sum n (fun j => w j * k j x).

(** The forcing fields after being updated to each of the given times, in
    order; without an update callback they stay as they are. *)
Definition forced (uf : option (R -> Env -> Env)) (times : list R) (e : Env) : Env :=
  match uf with
  | Some f => fold_left (fun e t => f t e) times e
  | None => e
  end.

(** t + c_0 dt, ..., t + c_{n-1} dt *)
Definition abscissae (t dt : R) (c : nat -> R) (n : nat) : list R :=
  map (fun i => t + c i * dt) (seq 0 n).

(** both abscissae of each stage, implicit one first *)
Definition abscissae2 (t dt : R) (cI cE : nat -> R) (n : nat) : list R :=
  flat_map (fun i => [t + cI i * dt; t + cE i * dt]) (seq 0 n).

(** [n]-stage explicit Runge-Kutta step from [u] to [u'] for u' = F(e, u);
    [e i] is the state of the forcings at stage [i]. *)
Definition explicit_step (n : nat) (a : nat -> nat -> R) (b : nat -> R)
    (F : Env -> (D -> R) -> D -> R) (dt : R) (e : nat -> Env) (u u' : D -> R) : Prop :=
  exists k : nat -> D -> R,
    (forall i, (i < n)%nat -> k i = F (e i) (along u dt i (a i) k)) /\
    u' = along u dt n b k.

(** [n]-stage diagonally implicit Runge-Kutta step *)
Definition implicit_step (n : nat) (a : nat -> nat -> R) (b : nat -> R)
    (F : Env -> (D -> R) -> D -> R) (dt : R) (e : nat -> Env) (u u' : D -> R) : Prop :=
  exists k : nat -> D -> R,
    (forall i, (i < n)%nat -> k i = F (e i) (along u dt (S i) (a i) k)) /\
    u' = along u dt n b k.

(** The same for terms of the form A(w) u, where stage [i] is linearised around
    [lin i k] instead of the stage value itself. *)
Definition linearised_step (n : nat) (a : nat -> nat -> R) (b : nat -> R)
    (G : Env -> (D -> R) -> (D -> R) -> D -> R) (dt : R) (e : nat -> Env)
    (lin : nat -> (nat -> D -> R) -> D -> R) (u u' : D -> R) : Prop :=
  exists k : nat -> D -> R,
    (forall i, (i < n)%nat -> k i = G (e i) (along u dt (S i) (a i) k) (lin i k)) /\
    u' = along u dt n b k.

(** value of the stage before stage [i]; the start value for stage 0 *)
Definition previous_stage (u : D -> R) (dt : R) (a : nat -> nat -> R)
    (i : nat) (k : nat -> D -> R) : D -> R :=
  match i with O => u | S i' => along u dt (S i') (a i') k end.

(** Implicit-explicit step: kI and kE are the implicit and explicit tendencies *)
Definition imex_step (n : nat) (aI : nat -> nat -> R) (bI : nat -> R)
    (aE : nat -> nat -> R) (bE : nat -> R)
    (GI : Env -> (D -> R) -> (D -> R) -> D -> R) (FE : Env -> (D -> R) -> D -> R)
    (dt : R) (eI eE : nat -> Env) (u u' : D -> R) : Prop :=
  exists kI kE : nat -> D -> R,
    (forall i, (i < n)%nat ->
       let base := along u dt i (aE i) kE in
       let y := along base dt (S i) (aI i) kI in
       kI i = GI (eI i) y base /\ kE i = FE (eE i) y) /\
    u' = along (along u dt n bE kE) dt n bI kI.

(** Shu-Osher form of an explicit scheme: stage values y_0 = u, y_1, ..., y_n *)
Definition shuosher_step (n : nat) (alpha beta : nat -> nat -> R)
    (F : Env -> (D -> R) -> D -> R) (dt : R) (e : nat -> Env) (u u' : D -> R) : Prop :=
  exists y : nat -> D -> R,
    y O = u /\
    (forall i, (i < n)%nat ->
       y (S i) = fun x => Sum (S i) (fun j => alpha (S i) j * y j x)
                          + dt * Sum (S i) (fun j => beta (S i) j * F (e j) (y j) x)) /\
    u' = y n.

(** Shu-Osher form of a diagonally implicit scheme: column 0 multiplies the
    start value, column j+1 stage j; row n is the new value *)
Definition shuosher_row (n : nat) (alpha beta : nat -> nat -> R)
    (F : Env -> (D -> R) -> D -> R) (dt : R) (e : nat -> Env) (u : D -> R)
    (y : nat -> D -> R) (i : nat) : D -> R :=
  fun x => alpha i O * u x + Sum n (fun j => alpha i (S j) * y j x)
           + dt * Sum n (fun j => beta i (S j) * F (e j) (y j) x).
Definition shuosher_implicit_step (n : nat) (alpha beta : nat -> nat -> R)
    (F : Env -> (D -> R) -> D -> R) (dt : R) (e : nat -> Env) (u u' : D -> R) : Prop :=
  exists y : nat -> D -> R,
    (forall i, (i < n)%nat -> y i = shuosher_row n alpha beta F dt e u y i) /\
    u' = shuosher_row n alpha beta F dt e u y n.

(** a linear functional, such as a total mass *)
Definition linear (l : (D -> R) -> R) : Prop :=
  (forall u v, l (fun x => u x + v x) = l u + l v) /\
  (forall a u, l (fun x => a * u x) = a * l u).

(** a convex set of states, such as the non-negative ones *)
Definition convex (K : (D -> R) -> Prop) : Prop :=
  forall u v a, 0 <= a <= 1 -> K u -> K v -> K (fun x => (1 - a) * u x + a * v x).

(** The contract of a stage solver: it finds a root if there is one. *)
Definition exact_solver (solve : ((D -> R) -> D -> R) -> (D -> R) -> D -> R) : Prop :=
  forall r guess, (exists k, forall x, r k x = 0) -> forall x, r (solve r guess) x = 0.
End Steps.

(** order conditions for a tableau of [n] stages *)
Definition row_sums (n : nat) (a : nat -> nat -> R) (c : nat -> R) : Prop :=
  forall i, (i < n)%nat -> Sum n (a i) = c i.
Definition lower_triangular (n : nat) (a : nat -> nat -> R) : Prop :=
  forall i j, (i < n)%nat -> (j < n)%nat -> (i < j)%nat -> a i j = 0.
Definition order1 (n : nat) (b : nat -> R) : Prop := Sum n b = 1.
Definition order2 (n : nat) (b c : nat -> R) : Prop :=
  order1 n b /\ Sum n (fun i => b i * c i) = 1 / 2.
Definition order3 (n : nat) (a : nat -> nat -> R) (b c : nat -> R) : Prop :=
  order2 n b c /\
  Sum n (fun i => b i * c i ^ 2) = 1 / 3 /\
  Sum n (fun i => b i * Sum n (fun j => a i j * c j)) = 1 / 6.

Definition strictly_lower_triangular (n : nat) (a : nat -> nat -> R) : Prop :=
  forall i j, (i < n)%nat -> (j < n)%nat -> (i <= j)%nat -> a i j = 0.
(** the entries below the diagonal of [a; b] *)
Definition nonzero_subdiagonal (n : nat) (a : nat -> nat -> R) (b : nat -> R) : Prop :=
  (forall i, (S i < n)%nat -> a (S i) i <> 0) /\ b (n - 1)%nat <> 0.
(** two (n+1) by (n+1) arrays that agree except that entries smaller than
    1e-13 in absolute value may have been replaced by zero *)
Definition same_up_to_rounding (n : nat) (m m' : nat -> nat -> R) : Prop :=
  forall i j, (i <= n)%nat -> (j <= n)%nat ->
    m' i j = m i j \/ (m' i j = 0 /\ Rabs (m i j) < / 10 ^ 13).
(** no entry would be replaced *)
Definition nothing_tiny (n : nat) (m : nat -> nat -> R) : Prop :=
  forall i j, (i <= n)%nat -> (j <= n)%nat -> m i j = 0 \/ / 10 ^ 13 <= Rabs (m i j).
Definition unit_row_sums (n : nat) (m : nat -> nat -> R) : Prop :=
  forall i, (i <= n)%nat -> Sum (S n) (m i) = 1.
(** the last row of [a] is [b] *)
Definition stiffly_accurate (n : nat) (a : nat -> nat -> R) (b : nat -> R) : Prop :=
  forall j, (j < n)%nat -> a (n - 1)%nat j = b j.
