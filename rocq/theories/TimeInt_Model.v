(** Single-equation time integrators other than Runge-Kutta, and the lagged
    copies of the coefficient fields.

    Models thetis/timeintegrator.py.  Vectors of degrees of freedom are
    functions [D -> R]; residuals and mass terms are linear forms, represented
    by their values on the basis, also [D -> R].  Floating point is replaced
    by real arithmetic and solvers enter through a parameter. *)

From Coq Require Import Reals List String Arith Bool.
From Verif Require Import RK_Model.
Import ListNotations.
Open Scope R_scope.

(** ** Coefficient fields and their lagged copies (timeintegrator.py:88-112) *)

(** What the entry of the [fields] dictionary is: a Function, a Constant,
    another UFL expression, or None/absent. *)
Inductive ckind := KFunction | KConstant | KExpr | KNone.

Section TimeInt.
Context {D Val B : Type}.
Local Notation vec := (D -> R).

(** keys of the [fields] dictionary (in the iteration order of [sorted]) and
    what each entry is; neither changes after construction *)
Variable keys : list string.
Variable kind : string -> ckind.
(** value of a newly created Function *)
Variable zeroval : Val.

(** Current values of the coefficients, values of the lagged Functions, and
    everything else the forms depend on (boundary conditions). *)
Record coefs := mk_coefs { val : string -> Val; oldv : string -> Val; oth : B }.

(** timeintegrator.py:88-104: lagged Functions start from zero *)
Definition create_fields_old (v : string -> Val) (b : B) : coefs :=
  mk_coefs v (fun _ => zeroval) b.

(** timeintegrator.py:106-112 *)
Definition update_fields_old (c : coefs) : coefs :=
  mk_coefs (val c)
    (fold_left (fun o k =>
        match kind k with
        | KFunction => fun k' => if String.eqb k' k then val c k else o k'
        | _ => o
        end) keys (oldv c))
    (oth c).

(** [fields.get(k)] *)
Definition view (c : coefs) (k : string) : option Val :=
  match kind k with KNone => None | _ => Some (val c k) end.

(** [fields_old.get(k)]: own copy of a Function, the same object for a
    Constant, no entry for anything else (timeintegrator.py:94-104) *)
Definition view_old (c : coefs) (k : string) : option Val :=
  match kind k with
  | KFunction => Some (oldv c k)
  | KConstant => Some (val c k)
  | _ => None
  end.

(** ** One-step integrators *)

(** state: [solution], [solution_old], coefficients *)
Record tst := mk_tst { tsol : vec; told : vec; tco : coefs }.

(** the user's [update_forcings] assigns coefficient values and boundary data *)
Definition forcing := R -> (string -> Val) * B -> (string -> Val) * B.
Definition force_co (uf : option forcing) (t : R) (c : coefs) : coefs :=
  match uf with
  | Some f => let (v, b) := f t (val c, oth c) in mk_coefs v (oldv c) b
  | None => c
  end.

(** residual(label, u, u_nl, fields, fields_old, bnd) *)
Variable Res : vec -> vec -> (string -> option Val) -> (string -> option Val) -> B -> vec.
(** equation.mass_term *)
Variable mass : vec -> vec.
Variable solve : (vec -> vec) -> vec -> vec.
Variable dt : R.
Variable uf : option forcing.

(** timeintegrator.py:152-156 and 228-232 *)
Definition ti_initialize (v : vec) (s : tst) : tst :=
  mk_tst (tsol s) v (update_fields_old (tco s)).

(** *** Forward Euler (timeintegrator.py:115-165) *)

(** timeintegrator.py:136-141: A(u) - L *)
Definition fe_residual (s : tst) (u : vec) : vec :=
  fun x => mass u x
    - (mass (told s) x
       + dt * Res (told s) (told s) (view_old (tco s)) (view_old (tco s)) (oth (tco s)) x).

(** timeintegrator.py:158-165 *)
Definition fe_advance (t : R) (s : tst) : tst :=
  let c := force_co uf (t + dt) (tco s) in
  let s := mk_tst (tsol s) (tsol s) c in
  let s := mk_tst (solve (fe_residual s) (tsol s)) (told s) (tco s) in
  mk_tst (tsol s) (told s) (update_fields_old (tco s)).

(** *** Crank-Nicolson / theta scheme (timeintegrator.py:168-252) *)
Variable theta : R.
Variable semi : bool.

(** timeintegrator.py:194-213 *)
Definition cn_residual (s : tst) (u : vec) : vec :=
  fun x =>
    mass u x - mass (told s) x
    - dt * (theta * Res u (if semi then told s else u)
                      (view (tco s)) (view (tco s)) (oth (tco s)) x
            + (1 - theta) * Res (told s) (told s)
                      (view_old (tco s)) (view_old (tco s)) (oth (tco s)) x).

(** timeintegrator.py:234-252: [advance] is [advance_picard] with both flags *)
Definition cn_advance_picard (update_lagged update_fields : bool) (t : R) (s : tst) : tst :=
  let c := force_co uf (t + dt) (tco s) in
  let s := mk_tst (tsol s) (if update_lagged then tsol s else told s) c in
  let s := mk_tst (solve (cn_residual s) (tsol s)) (told s) (tco s) in
  if update_fields then mk_tst (tsol s) (told s) (update_fields_old (tco s)) else s.

Definition cn_advance (t : R) (s : tst) : tst := cn_advance_picard true true t s.

(** *** Steady state (timeintegrator.py:255-302) *)
Definition ss_residual (s : tst) (u : vec) : vec :=
  Res u u (view (tco s)) (view (tco s)) (oth (tco s)).

Definition ss_advance (t : R) (s : tst) : tst :=
  let c := force_co uf (t + dt) (tco s) in
  let s := mk_tst (tsol s) (told s) c in
  mk_tst (solve (ss_residual s) (tsol s)) (told s) (tco s).

(** *** Pressure projection with Picard iterations (timeintegrator.py:305-464)

    [Fmom old lagged c ustar] is the form of the momentum equation for the
    preliminary velocity (391-397); [Mstar ustar old] the mass term of
    (ustar, eta_old) (405); [Rimp] the implicit terms (406-412); [Corr] the
    subtracted pressure gradient terms (413-419). *)
Variable U : Type.
Variable Fmom : vec -> vec -> coefs -> U -> U.
Variable solve_mom : (U -> U) -> U -> U.
Variable Mstar : U -> vec -> vec.
Variable Rimp : vec -> vec -> (string -> option Val) -> (string -> option Val) -> B -> vec.
Variable Corr : U -> vec -> vec -> coefs -> vec.

Record pst := mk_pst { psol : vec; pold : vec; plag : vec; pstar : U; pco : coefs }.

(** timeintegrator.py:405-419 *)
Definition pp_residual (s : pst) (u : vec) : vec :=
  fun x =>
    mass u x - Mstar (pstar s) (pold s) x
    - dt * (theta * Rimp u (if semi then plag s else u)
                      (view (pco s)) (view (pco s)) (oth (pco s)) x
            + (1 - theta) * Rimp (pold s) (pold s)
                      (view_old (pco s)) (view_old (pco s)) (oth (pco s)) x)
    + - dt * Corr (pstar s) (pold s) (plag s) (pco s) x.

(** one pass of the loop, timeintegrator.py:456-462; with a single iteration
    [solution_lagged] is the same Function as [solution_old] (351-354) *)
Definition pp_iterate (iterations : nat) (s : pst) : pst :=
  let s := if Nat.ltb 1 iterations
           then mk_pst (psol s) (pold s) (psol s) (pstar s) (pco s)
           else mk_pst (psol s) (pold s) (pold s) (pstar s) (pco s) in
  let s := mk_pst (psol s) (pold s) (plag s)
             (solve_mom (Fmom (pold s) (plag s) (pco s)) (pstar s)) (pco s) in
  mk_pst (solve (pp_residual s) (psol s)) (pold s) (plag s) (pstar s) (pco s).

(** timeintegrator.py:449-464 *)
Definition pp_advance (iterations : nat) (t : R) (s : pst) : pst :=
  let c := force_co uf (t + dt) (pco s) in
  let s := mk_pst (psol s) (psol s) (plag s) (pstar s) c in
  let s := for_range iterations (fun _ => pp_iterate iterations) s in
  mk_pst (psol s) (pold s) (plag s) (pstar s) (update_fields_old (pco s)).

End TimeInt.

(** ** Integrators on moving meshes *)

Section ALE.
Context {D Geo Env : Type}.
Local Notation vec := (D -> R).

(** mass matrix and residual depend on the current mesh geometry; the mass
    term of the equation is taken to be the L2 product, as in the forms
    [mass_new], [mass_old] and [mu_form] *)
Variable massg : Geo -> vec -> vec.
Variable Resg : Geo -> Env -> vec -> vec.
(** [LinearSolver(mass_matrix).solve] *)
Variable msolve : Geo -> vec -> vec.
Variable dt : R.
Variable uf : option (R -> Env -> Env).

Record ast := mk_ast {
  asol : vec;     (** solution *)
  amu : vec;      (** mu (SSPRK22ALE), rhs_func (LeapFrogAM3) *)
  amu_old : vec;  (** mu_old, msolution_old *)
  aold : vec;     (** solution_old (LeapFrogAM3) *)
  ageo : Geo; aenv : Env
}.

(** mesh update between preparing and solving a stage *)
Definition ale_move (g : Geo) (s : ast) : ast :=
  mk_ast (asol s) (amu s) (amu_old s) (aold s) g (aenv s).

Definition ale_force (t : R) (s : ast) : ast :=
  mk_ast (asol s) (amu s) (amu_old s) (aold s) (ageo s) (force uf t (aenv s)).

(** timeintegrator.py:672-686 *)
Definition ale_stage_one_prep (s : ast) : ast :=
  let mu_old := massg (ageo s) (asol s) in
  let k := fun x => dt * Resg (ageo s) (aenv s) (asol s) x in
  mk_ast (asol s) (fun x => mu_old x + k x) mu_old (aold s) (ageo s) (aenv s).

(** timeintegrator.py:688-705, 720-739 *)
Definition ale_stage_solve (s : ast) : ast :=
  mk_ast (msolve (ageo s) (amu s)) (amu s) (amu_old s) (aold s) (ageo s) (aenv s).

(** timeintegrator.py:707-718 *)
Definition ale_stage_two_prep (s : ast) : ast :=
  let k := fun x => dt * Resg (ageo s) (aenv s) (asol s) x in
  mk_ast (asol s) (fun x => 1/2 * amu s x + 1/2 * amu_old s x + 1/2 * k x)
    (amu_old s) (aold s) (ageo s) (aenv s).

(** timeintegrator.py:749-761; c = [0, 1] *)
Definition ale_prepare_stage (i : nat) (t : R) (s : ast) : ast :=
  let s := ale_force (t + (if Nat.eqb i 0 then 0 else 1) * dt) s in
  if Nat.eqb i 0 then ale_stage_one_prep s else ale_stage_two_prep s.

(** A full step in which the mesh moves to [g1], then [g2]; with both equal
    to the current geometry this is [advance] (timeintegrator.py:763-770). *)
Definition ale_step (g1 g2 : Geo) (t : R) (s : ast) : ast :=
  let s := ale_prepare_stage 0 t s in
  let s := ale_stage_solve (ale_move g1 s) in
  let s := ale_prepare_stage 1 t s in
  ale_stage_solve (ale_move g2 s).

(** *** Leap-frog Adams-Moulton (timeintegrator.py:467-606) *)
Definition lf_gamma : R := 1 / 12.

(** timeintegrator.py:526-533 *)
Definition lf_initialize (v : vec) (s : ast) : ast :=
  mk_ast v (amu s) (massg (ageo s) v) v (ageo s) (aenv s).

(** timeintegrator.py:545-568 with the form of 514-522 *)
Definition lf_predict (s : ast) : ast :=
  let msol := massg (ageo s) (asol s) in
  let rhs := fun x =>
    (1/2 - 2 * lf_gamma) * massg (ageo s) (aold s) x
    + (1/2 + 2 * lf_gamma) * massg (ageo s) (asol s) x
    + (1 - 2 * lf_gamma) * (dt * Resg (ageo s) (aenv s) (asol s) x) in
  mk_ast (msolve (ageo s) rhs) rhs msol (asol s) (ageo s) (aenv s).

(** timeintegrator.py:570-573 *)
Definition lf_eval_rhs (s : ast) : ast :=
  mk_ast (asol s) (fun x => dt * Resg (ageo s) (aenv s) (asol s) x)
    (amu_old s) (aold s) (ageo s) (aenv s).

(** timeintegrator.py:575-596 *)
Definition lf_correct (s : ast) : ast :=
  let rhs := fun x => amu s x + amu_old s x in
  mk_ast (msolve (ageo s) rhs) rhs (amu_old s) (aold s) (ageo s) (aenv s).

(** timeintegrator.py:598-606, with the mesh moved to [g1] before the
    correction (as coupled_timeintegrator.py does) *)
Definition lf_step (g1 : Geo) (t : R) (s : ast) : ast :=
  let s := ale_force (t + dt) s in
  lf_correct (ale_move g1 (lf_eval_rhs (lf_predict s))).

End ALE.
