(** Runge-Kutta time integrators.

    Models thetis/rungekutta.py and thetis/implicitexplicit.py.

    A finite element function is represented by its vector of degrees of
    freedom, [D -> R], for an arbitrary set [D] of degrees of freedom.  The
    equation enters through [M^-1 residual], a function of the state of the
    forcing fields ([Env]) and of the solution; the mass matrix solve of the
    explicit integrators is taken to be exact.  Real arithmetic replaces
    floating point. *)

From Coq Require Import Reals List Arith Bool Lia Lra.
Import ListNotations.
Open Scope R_scope.

(** [sum(...)] of the first [n] terms *)
Fixpoint rsum (n : nat) (f : nat -> R) : R :=
  match n with O => 0 | S m => rsum m f + f m end.

(** Butcher tableau: number of stages, a, b, c.
    rungekutta.py:90-129 ([AbstractRKScheme]) *)
Record tableau := mk_tableau {
  ns : nat;
  ta : nat -> nat -> R;
  tb : nat -> R;
  tc : nat -> R
}.

(** [numpy.array(self.a)] etc. from nested lists, rungekutta.py:125-127 *)
Definition tab (a : list (list R)) (b c : list R) : tableau :=
  mk_tableau (length b)
    (fun i j => nth j (nth i a []) 0)
    (fun i => nth i b 0)
    (fun i => nth i c 0).

(** ** The shipped tableaux *)

(** rungekutta.py:142-150 *)
Definition ForwardEulerTab := tab [[0]] [1] [0].
(** rungekutta.py:152-159 *)
Definition BackwardEulerTab := tab [[1]] [1] [1].
(** rungekutta.py:162-178 *)
Definition ImplicitMidpointTab := tab [[1/2]] [1] [1/2].
(** rungekutta.py:181-189 *)
Definition CrankNicolsonTab := tab [[0; 0]; [1/2; 1/2]] [1/2; 1/2] [0; 1].
(** rungekutta.py:192-218 *)
Definition gamma22 : R := (2 - sqrt 2) / 2.
Definition DIRK22Tab :=
  tab [[gamma22; 0]; [1 - gamma22; gamma22]] [1 - gamma22; gamma22] [gamma22; 1].
(** rungekutta.py:221-247 *)
Definition gamma23 : R := (3 + sqrt 3) / 6.
Definition DIRK23Tab :=
  tab [[gamma23; 0]; [1 - 2 * gamma23; gamma23]] [1/2; 1/2] [gamma23; 1 - gamma23].
(** rungekutta.py:250-268 *)
Definition gamma33 : R := 4358665215 / 10000000000.
Definition b1_33 : R := - 3/2 * gamma33 ^ 2 + 4 * gamma33 - 1/4.
Definition b2_33 : R := 3/2 * gamma33 ^ 2 - 5 * gamma33 + 5/4.
Definition DIRK33Tab :=
  tab [[gamma33; 0; 0]; [(1 - gamma33)/2; gamma33; 0]; [b1_33; b2_33; gamma33]]
      [b1_33; b2_33; gamma33] [gamma33; (1 + gamma33)/2; 1].
(** rungekutta.py:271-287 *)
Definition DIRK43Tab :=
  tab [[1/2; 0; 0; 0]; [1/6; 1/2; 0; 0]; [-1/2; 1/2; 1/2; 0]; [3/2; -3/2; 1/2; 1/2]]
      [3/2; -3/2; 1/2; 1/2] [1/2; 2/3; 1/2; 1].
(** rungekutta.py:290-305 *)
Definition DIRKLSPUM2Tab :=
  tab [[2/11; 0; 0]; [205/462; 2/11; 0]; [2033/4620; 21/110; 2/11]]
      [24/55; 1/5; 4/11] [2/11; 289/462; 751/924].
(** rungekutta.py:308-323 *)
Definition DIRKLPUM2Tab :=
  tab [[2/11; 0; 0]; [41/154; 2/11; 0]; [289/847; 42/121; 2/11]]
      [1/3; 1/3; 1/3] [2/11; 69/154; 67/77].
(** rungekutta.py:326-347 *)
Definition SSPRK33Tab :=
  tab [[0; 0; 0]; [1; 0; 0]; [1/4; 1/4; 0]] [1/6; 1/6; 2/3] [0; 1; 1/2].
(** rungekutta.py:350-365 *)
Definition ERKLSPUM2Tab :=
  tab [[0; 0; 0]; [5/6; 0; 0]; [11/24; 11/24; 0]] [24/55; 1/5; 4/11] [0; 5/6; 11/12].
(** rungekutta.py:368-384 *)
Definition ERKLPUM2Tab :=
  tab [[0; 0; 0]; [1/2; 0; 0]; [1/2; 1/2; 0]] [1/3; 1/3; 1/3] [0; 1/2; 1].
(** rungekutta.py:387-392 *)
Definition ERKMidpointTab := tab [[0; 0]; [1/2; 0]] [0; 1] [0; 1/2].
(** rungekutta.py:395-400 *)
Definition ESDIRKMidpointTab := tab [[0; 0]; [0; 1/2]] [0; 1] [0; 1/2].
(** rungekutta.py:403-408 *)
Definition ESDIRKTrapezoidTab := tab [[0; 0]; [1/2; 1/2]] [1/2; 1/2] [0; 1].

(** ** Conversion to Shu-Osher form *)

Definition mat := nat -> nat -> R.

(** [numpy.dot] of two [n] by [n] arrays *)
Definition matmul (n : nat) (A B : mat) : mat :=
  fun i j => rsum n (fun k => A i k * B k j).
(** [numpy.eye] *)
Definition ident : mat := fun i j => if Nat.eqb i j then 1 else 0.
(** [numpy.diag(numpy.diag(m))] *)
Definition diagm (A : mat) : mat := fun i j => if Nat.eqb i j then A i i else 0.

(** [linalg.inv] of a lower triangular matrix with non-zero diagonal, by
    forward substitution; [linv A m] holds the first [m] rows.  (The argument
    is lower triangular at every call site: rungekutta.py:129 asserts it.) *)
Fixpoint linv (A : mat) (m : nat) : mat :=
  match m with
  | O => fun _ _ => 0
  | S i =>
      let X := linv A i in
      fun r j =>
        if Nat.ltb r i then X r j
        else if Nat.eqb r i then
          (ident i j - rsum i (fun k => A i k * X k j)) / A i i
        else 0
  end.

Definition Rnzb (x : R) : bool := if Req_EM_T x 0 then false else true.

(** [all]/[any] over [range n] *)
Fixpoint alln (n : nat) (p : nat -> bool) : bool :=
  match n with O => true | S m => alln m p && p m end.
Fixpoint anyn (n : nat) (p : nat -> bool) : bool :=
  match n with O => false | S m => anyn m p || p m end.

(** [linalg.inv]: [None] models LinAlgError *)
Definition linalg_inv (n : nat) (A : mat) : option mat :=
  if alln n (fun i => Rnzb (A i i)) then Some (linv A n) else None.

(** [x[numpy.abs(x) < 1e-13] = 0.0], rungekutta.py:75-77 *)
Definition tiny : R := / 10 ^ 13.
Definition round13 (x : R) : R := if Rlt_dec (Rabs x) tiny then 0 else x.

(** [butcher = numpy.vstack((a, b))], rungekutta.py:33 *)
Definition butcher (T : tableau) : mat :=
  fun i j => if Nat.ltb i (ns T) then ta T i j else tb T j.

(** [numpy.diag(a).any()], rungekutta.py:35, 134 *)
Definition is_implicit (T : tableau) : bool :=
  anyn (ns T) (fun i => Rnzb (ta T i i)).
(** [numpy.diag(a).all()], rungekutta.py:135 *)
Definition is_dirk (T : tableau) : bool :=
  alln (ns T) (fun i => Rnzb (ta T i i)).

(** first column: [alpha[:, 0] = 1.0 - numpy.sum(alpha, axis=1)] where the
    first column is still zero, rungekutta.py:54-55, 70 *)
Definition consistent (n : nat) (al : mat) : mat :=
  fun i j => match j with
             | O => 1 - rsum n (fun k => al i (S k))
             | _ => al i j
             end.

(** implicit branch before rounding, rungekutta.py:37-57 *)
Definition so_implicit (T : tableau) : option (mat * mat) :=
  let n := ns T in
  match linalg_inv n (ta T), linalg_inv n (diagm (ta T)) with
  | Some X, Some Y =>
      let be_0 := diagm (ta T) in
      let be_1 := fun j => if Nat.eqb (S j) n then tb T j else 0 in
      let al_0 := fun i j => ident i j - matmul n be_0 X i j in
      let W := matmul n Y (fun i j => ident i j - al_0 i j) in
      let al_1 := fun j => rsum n (fun k => (tb T k - be_1 k) * W k j) in
      let al := fun i j => match j with
                           | O => 0
                           | S j' => if Nat.ltb i n then al_0 i j' else al_1 j'
                           end in
      let beta := fun i j => match j with
                             | O => 0
                             | S j' => if Nat.ltb i n then be_0 i j' else be_1 j'
                             end in
      Some (consistent n al, beta)
  | _, _ => None
  end.

(** explicit branch before rounding, rungekutta.py:58-73 *)
Definition so_explicit (T : tableau) : option (mat * mat) :=
  let n := ns T in
  let aa := fun i j => butcher T (S i) j in
  match linalg_inv n aa with
  | Some X =>
      let be_0 := diagm aa in
      let al_0 := fun i j => ident i j - matmul n be_0 X i j in
      let al := fun i j => match i, j with
                           | S i', S j' => al_0 i' j'
                           | _, _ => 0
                           end in
      let beta := fun i j => match i with
                             | O => 0
                             | S i' => if Nat.ltb j n then be_0 i' j else 0
                             end in
      Some (consistent n al, beta)
  | None => None
  end.

(** rungekutta.py:13-87.  The two sanity assertions (79-85) are theorems
    about the model instead of run-time checks. *)
Definition butcher_to_shuosher (T : tableau) : option (mat * mat) :=
  match (if is_implicit T then so_implicit T else so_explicit T) with
  | Some (al, be) =>
      Some (fun i j => round13 (al i j), fun i j => round13 (be i j))
  | None => None
  end.

(** ** Integrators *)

Section Integrators.
Context {D Env : Type}.

Local Notation vec := (D -> R).
Definition vzero : vec := fun _ => 0.
Definition vadd (u v : vec) : vec := fun x => u x + v x.
Definition vscale (a : R) (v : vec) : vec := fun x => a * v x.
(** [sum(map(operator.mul, ks, coeffs))] over the first [n] *)
Definition vlin (n : nat) (c : nat -> R) (k : nat -> vec) : vec :=
  fun x => rsum n (fun j => c j * k j x).

(** State of an integrator: [solution], [solution_old], the tendencies
    [k]/[tendency], the stage solutions [stage_sol], [_initialized], and the
    forcing fields shared with the rest of the model. *)
Record st := mk_st {
  sol : vec; sol_old : vec; kk : nat -> vec; stg : nat -> vec;
  ini : bool; env : Env
}.

Definition set_sol v s := mk_st v (sol_old s) (kk s) (stg s) (ini s) (env s).
Definition set_old v s := mk_st (sol s) v (kk s) (stg s) (ini s) (env s).
Definition upd (f : nat -> vec) i v : nat -> vec :=
  fun j => if Nat.eqb j i then v else f j.
Definition set_k i v s := mk_st (sol s) (sol_old s) (upd (kk s) i v) (stg s) (ini s) (env s).
Definition set_stg i v s := mk_st (sol s) (sol_old s) (kk s) (upd (stg s) i v) (ini s) (env s).
Definition set_ini b s := mk_st (sol s) (sol_old s) (kk s) (stg s) b (env s).
Definition set_env e s := mk_st (sol s) (sol_old s) (kk s) (stg s) (ini s) e.

(** [if update_forcings is not None: update_forcings(t)] *)
Definition force (uf : option (R -> Env -> Env)) (t : R) (e : Env) : Env :=
  match uf with Some f => f t e | None => e end.

(** [for i in range(n): f(i)] *)
Fixpoint for_range {S : Type} (n : nat) (f : nat -> S -> S) (s : S) : S :=
  match n with O => s | S m => f m (for_range m f s) end.

(** *** Explicit, Butcher form (rungekutta.py:762-867) *)
Section ERK.
  Variable T : tableau.
  (** [M^-1 residual(u, u)] *)
  Variable F : Env -> vec -> vec.
  (** [self._nontrivial] (792): the residual has at least one term *)
  Variable nontriv : bool.
  Variable dt : R.
  Variable uf : option (R -> Env -> Env).

  (** rungekutta.py:820-823 *)
  Definition erk_initialize (v : vec) s := set_ini true (set_old v s).

  (** rungekutta.py:826-838 *)
  Definition erk_update_solution (additive : bool) (i : nat) s :=
    let s := if additive then s else set_sol (sol_old s) s in
    if nontriv && Nat.ltb 0 i
    then set_sol (vadd (sol s) (vlin i (ta T i) (kk s))) s
    else s.

  (** rungekutta.py:841-848; the solver (789-790, 809-817) computes
      [M^-1 (dt residual(solution))] *)
  Definition erk_solve_tendency (i : nat) (t : R) s :=
    if nontriv then
      let s := set_env (force uf (t + tc T i * dt) (env s)) s in
      set_k i (vscale dt (F (env s) (sol s))) s
    else s.

  (** rungekutta.py:851-861 *)
  Definition erk_get_final (additive : bool) s :=
    let s := if additive then s else set_sol (sol_old s) s in
    let s := if nontriv then set_sol (vadd (sol s) (vlin (ns T) (tb T) (kk s))) s else s in
    set_old (sol s) s.

  (** rungekutta.py:864-867 *)
  Definition erk_solve_stage (t : R) (i : nat) s :=
    erk_solve_tendency i t (erk_update_solution false i s).

  (** rungekutta.py:427-435 *)
  Definition erk_advance (t : R) s :=
    let s := if ini s then s else erk_initialize (sol s) s in
    erk_get_final false (for_range (ns T) (erk_solve_stage t) s).
End ERK.

(** *** Explicit, Shu-Osher form (rungekutta.py:870-952) *)
Section ShuOsher.
  Variable n : nat.
  Variables alpha beta : mat.
  Variable c : nat -> R.
  Variable F : Env -> vec -> vec.
  Variable nontriv : bool.
  Variable dt : R.
  Variable uf : option (R -> Env -> Env).

  (** rungekutta.py:903-912, 930-946; [self.tendency] is [kk 0] *)
  Definition so_solve_stage (t : R) (i : nat) s :=
    if nontriv then
      let s := set_env (force uf (t + c i * dt) (env s)) s in
      let s := if Nat.eqb i 0 then set_stg 0 (sol s) s else s in
      let s := set_k 0 (vscale dt (F (env s) (sol s))) s in
      let s := set_sol (vadd (vscale (beta (S i) i) (kk s 0%nat))
                             (vlin (S i) (alpha (S i)) (stg s))) s in
      if Nat.ltb i (n - 1) then set_stg (S i) (sol s) s else s
    else s.

  (** rungekutta.py:948-952 *)
  Definition so_advance (t : R) s := for_range n (so_solve_stage t) s.
End ShuOsher.

(** *** Diagonally implicit, tendency form (rungekutta.py:438-577) *)
Section DIRK.
  Variable T : tableau.
  (** [M^-1 residual(u, u_nl)]: all terms are of the form A(u_nl) u *)
  Variable G : Env -> vec -> vec -> vec.
  (** [solver.solve()]: takes the residual and the initial guess *)
  Variable solve : (vec -> vec) -> vec -> vec.
  (** [use_semi_implicit_linearization] *)
  Variable semi : bool.
  Variable dt : R.
  Variable uf : option (R -> Env -> Env).

  (** rungekutta.py:485-503 (the mixed-space branch 504-516 computes the same
      sum component by component).  [u_nl] is the Function [self.solution] (or
      [self.solution_old]), not the expression [u] under construction. *)
  Definition dirk_residual (i : nat) s (k : vec) : vec :=
    fun x =>
      - k x
      + G (env s)
          (vadd (sol_old s) (vlin (S i) (fun j => ta T i j * dt) (upd (kk s) i k)))
          (if semi then sol_old s else sol s) x.

  (** rungekutta.py:540-544 *)
  Definition dirk_initialize (v : vec) s := set_ini true (set_old v s).

  (** rungekutta.py:546-553 *)
  Definition dirk_update_solution (i : nat) s :=
    set_sol (vadd (sol_old s) (vlin (S i) (fun j => dt * ta T i j) (kk s))) s.

  (** rungekutta.py:555-567; [error] only logs *)
  Definition dirk_solve_tendency (i : nat) (t : R) s :=
    let s := if Nat.eqb i 0 then set_old (sol s) s else s in
    let s := set_env (force uf (t + tc T i * dt) (env s)) s in
    set_k i (solve (dirk_residual i s) (kk s i)) s.

  (** rungekutta.py:523, 569-572 *)
  Definition dirk_get_final s :=
    set_sol (vadd (sol_old s) (vlin (ns T) (fun j => dt * tb T j) (kk s))) s.

  (** rungekutta.py:574-577 *)
  Definition dirk_solve_stage (t : R) (i : nat) s :=
    dirk_update_solution i (dirk_solve_tendency i t s).

  (** rungekutta.py:427-435 *)
  Definition dirk_advance (t : R) s :=
    let s := if ini s then s else dirk_initialize (sol s) s in
    dirk_get_final (for_range (ns T) (dirk_solve_stage t) s).

  (** *** Diagonally implicit, solution form (rungekutta.py:580-711) *)

  (** [equation.mass_term], up to the Riesz map of the L2 product *)
  Variable mass : vec -> vec.

  (** rungekutta.py:635-642 *)
  Definition uform_residual (i : nat) s (u : vec) : vec :=
    fun x =>
      mass u x - mass (sol_old s) x
      - (dt * ta T i i * G (env s) u (if semi then sol_old s else u) x
         + vlin i (fun j => dt * ta T i j) (kk s) x).

  (** rungekutta.py:645-650 *)
  Definition uform_kform (i : nat) s (k : vec) : vec :=
    fun x =>
      dt * ta T i i * k x - (mass (sol s) x - mass (sol_old s) x)
      + vlin i (fun j => dt * ta T i j) (kk s) x.

  (** rungekutta.py:684-687 *)
  Definition uform_initialize (v : vec) s := set_ini true (set_old v s).

  (** rungekutta.py:695-711 *)
  Definition uform_solve_stage (t : R) (i : nat) s :=
    let s := if Nat.eqb i 0 then set_old (sol s) s else s in
    let s := set_env (force uf (t + tc T i * dt) (env s)) s in
    let s := set_sol (solve (uform_residual i s) (sol s)) s in
    if Nat.ltb i (ns T - 1) then set_k i (solve (uform_kform i s) (kk s i)) s else s.

  (** rungekutta.py:427-435 with the no-op of 689-693 *)
  Definition uform_advance (t : R) s :=
    let s := if ini s then s else uform_initialize (sol s) s in
    for_range (ns T) (uform_solve_stage t) s.
End DIRK.

(** *** Implicit-explicit (implicitexplicit.py:8-117) *)
Section IMEX.
  (** implicit and explicit tableaux, with equal numbers of stages (54) *)
  Variables TI TE : tableau.
  Variable GI : Env -> vec -> vec -> vec.
  Variable FE : Env -> vec -> vec.
  Variable nontriv : bool.
  Variable solve : (vec -> vec) -> vec -> vec.
  Variable semi : bool.
  Variable dt : R.
  Variable uf : option (R -> Env -> Env).

  (** The two sub-integrators; they share the [solution] Function and the
      forcing fields, so each call is followed by copying those over. *)
  Record imst := mk_im { dk : st; ek : st }.
  Definition on_erk (f : st -> st) (s : imst) : imst :=
    let e := f (ek s) in mk_im (set_env (env e) (set_sol (sol e) (dk s))) e.
  Definition on_dirk (f : st -> st) (s : imst) : imst :=
    let d := f (dk s) in mk_im d (set_env (env d) (set_sol (sol d) (ek s))).

  (** implicitexplicit.py:66-70 *)
  Definition imex_initialize (v : vec) (s : imst) : imst :=
    on_erk (erk_initialize v) (on_dirk (dirk_initialize v) s).

  (** implicitexplicit.py:79-93 *)
  Definition imex_solve_stage (t : R) (i : nat) (s : imst) : imst :=
    let s := on_erk (erk_update_solution TE nontriv false i) s in
    let s := on_dirk (set_old (sol (ek s))) s in
    let s := on_dirk (dirk_solve_tendency TI GI solve semi dt uf i t) s in
    let s := on_dirk (dirk_update_solution TI dt i) s in
    on_erk (erk_solve_tendency TE FE nontriv dt uf i t) s.

  (** implicitexplicit.py:95-107 *)
  Definition imex_get_final (s : imst) : imst :=
    let s := on_erk (erk_get_final TE nontriv false) s in
    let s := on_dirk (set_old (sol (ek s))) s in
    let s := on_dirk (dirk_get_final TI dt) s in
    on_erk (set_old (sol (dk s))) s.

  (** implicitexplicit.py:72-77 *)
  Definition imex_advance (t : R) (s : imst) : imst :=
    imex_get_final (for_range (ns TE) (imex_solve_stage t) s).
End IMEX.

End Integrators.
