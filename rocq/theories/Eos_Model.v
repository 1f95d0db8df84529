(** Model of the equations of state and the density solvers of
    /repo/thetis/utility3d.py (lines 213-327 and 1000-1140), and of
    compute_wind_stress, /repo/thetis/forcing.py:19-79.

    Numbers are real numbers: floating-point rounding is not modelled. Arrays
    are lists (one entry per node). *)
From Coq Require Import Reals List String Lra.
Import ListNotations.
Open Scope R_scope.
Open Scope list_scope.

(* ------------------------------------------------------------------ *)
(** * Equations of state *)

(** Coefficients of JackettEquationOfState, utility3d.py:1049-1056. *)
Definition ja (i : nat) : R :=
  nth i
    [ 9.9984085444849347e2; 7.3471625860981584e0; -5.3211231792841769e-2;
      3.6492439109814549e-4; 2.5880571023991390e0; -6.7168282786692355e-3;
      1.9203202055760151e-3; 1.1798263740430364e-2; 9.8920219266399117e-8;
      4.6996642771754730e-6; -2.5862187075154352e-8; -3.2921414007960662e-12 ]
    0.

Definition jb (i : nat) : R :=
  nth i
    [ 1.0; 7.2815210113327091e-3; -4.4787265461983921e-5; 3.3851002965802430e-7;
      1.3651202389758572e-10; 1.7632126669040377e-3; -8.8066583251206474e-6;
      -1.8832689434804897e-10; 5.7463776745432097e-6; 1.4716275472242334e-9;
      6.7103246285651894e-6; -2.4461698007024582e-17; -9.1534417604289062e-18 ]
    0.

(** [pow(s, 1.5)] for a non-negative [s]; C's pow gives 0 at 0. *)
Definition pow15 (s : R) : R := s * sqrt s.

(** Numerator of JackettEquationOfState.eval, utility3d.py:1083-1085. *)
Definition jackett_pn (s th p : R) : R :=
  ja 0 + th * ja 1 + th * th * ja 2 + th * th * th * ja 3 + s * ja 4
  + th * s * ja 5 + s * s * ja 6 + p * ja 7 + p * th * th * ja 8 + p * s * ja 9
  + p * p * ja 10 + p * p * th * th * ja 11.

(** Denominator of JackettEquationOfState.eval, utility3d.py:1086-1089. *)
Definition jackett_pd (s th p : R) : R :=
  jb 0 + th * jb 1 + th * th * jb 2 + th * th * th * jb 3
  + th * th * th * th * jb 4 + s * jb 5 + s * th * jb 6 + s * th * th * th * jb 7
  + pow15 s * jb 8 + pow15 s * th * th * jb 9 + p * jb 10
  + p * p * th * th * th * jb 11 + p * p * p * th * jb 12.

(** JackettEquationOfState.eval, utility3d.py:1080-1091. *)
Definition jackett_eval (s th p rho0 : R) : R :=
  jackett_pn s th p / jackett_pd s th p - rho0.

(** JackettEquationOfState.compute_rho, utility3d.py:1058-1078. *)
Definition jackett_compute_rho (s th p rho0 : R) : R :=
  jackett_eval (Rmax s 0) th p rho0.

(** LinearEquationOfState.__init__, utility3d.py:1101-1113. *)
Record linear_eos := mk_linear
  { le_rho_ref : R; le_alpha : R; le_beta : R; le_th_ref : R; le_s_ref : R }.

(** LinearEquationOfState.compute_rho and eval, utility3d.py:1115-1140. *)
Definition linear_compute_rho (e : linear_eos) (s th p rho0 : R) : R :=
  le_rho_ref e - rho0 - le_alpha e * (th - le_th_ref e)
  + le_beta e * (s - le_s_ref e).

(** An EquationOfState object, utility3d.py:1000-1033. *)
Inductive eos := Jackett | Linear (e : linear_eos).

Definition compute_rho (e : eos) : R -> R -> R -> R -> R :=
  match e with
  | Jackett => jackett_compute_rho
  | Linear l => linear_compute_rho l
  end.

Definition eos_eval (e : eos) : R -> R -> R -> R -> R :=
  match e with
  | Jackett => jackett_eval
  | Linear l => linear_compute_rho l
  end.

(* ------------------------------------------------------------------ *)
(** * Density solvers *)

(** A tracer argument of the density solvers: a Function (nodal values) or a
    Constant / float; DensitySolver._get_array, utility3d.py:251-259. *)
Inductive source := Nodal (l : list R) | Uniform (x : R).

Definition at_node (s : source) (i : nat) : R :=
  match s with
  | Nodal l => nth i l 0
  | Uniform x => x
  end.

(** The fields a density solver touches. *)
Record water := mk_water { wt_salt : source; wt_temp : source; wt_rho : list R }.

(** numpy broadcasting succeeds when every array has the length of rho; the
    constructor asserts that the function spaces agree, utility3d.py:242-245. *)
Definition fits (n : nat) (s : source) : bool :=
  match s with
  | Nodal l => Nat.eqb (List.length l) n
  | Uniform _ => true
  end.

(** DensitySolver.__init__ / solve, utility3d.py:227-268. None: the assertion
    of the constructor fails. *)
Definition density_solve (e : eos) (rho0 : R) (w : water) : option water :=
  let n := List.length (wt_rho w) in
  if (fits n (wt_salt w) && fits n (wt_temp w))%bool then
    Some (mk_water (wt_salt w) (wt_temp w)
            (map (fun i => compute_rho e (at_node (wt_salt w) i)
                             (at_node (wt_temp w) i) 0 rho0)
                 (seq 0 n)))
  else None.

(** DensitySolverWeak.ensure_positive_salinity, utility3d.py:312-321. *)
Definition clip (x : R) : R := if Rlt_dec x 0 then 0 else x.

Definition ensure_positive_salinity (s : source) : source :=
  match s with
  | Nodal l => Nodal (map clip l)
  | Uniform x => Uniform (clip x)
  end.

(** DensitySolverWeak.solve, utility3d.py:323-327. The projection of the
    expression to the density space is a parameter: it sees the pointwise value
    of the expression at every point, given as a function of the salinity and
    temperature there. *)
Definition weak_solve (project : (R -> R -> R) -> source -> source -> list R)
  (e : eos) (rho0 : R) (w : water) : water :=
  let s := ensure_positive_salinity (wt_salt w) in
  mk_water s (wt_temp w)
    (project (fun s th => eos_eval e s th 0 rho0) s (wt_temp w)).

(* ------------------------------------------------------------------ *)
(** * Wind stress *)

(** numpy.hypot, forcing.py:60. *)
Definition wind_mag (u v : R) : R := sqrt (u * u + v * v).

(** The drag coefficient at one location, forcing.py:61-75. None: the method is
    unknown, C_D is unbound and the next line raises UnboundLocalError. *)
Definition drag_coefficient (method : string) (m : R) : option R :=
  if String.eqb method "LargePond1981" then
    Some (if Rgt_dec m 11 then 1e-3 * (0.49 + 0.065 * m) else 1.2e-3)
  else if String.eqb method "SmithBanke1975" then
    Some ((0.63 + 0.066 * m) / 1000)
  else if String.eqb method "LargeYeager2009" then
    Some (if Rgt_dec m 33 then 2.34e-3
          else 1e-3 * (2.7 / (m + 1e-3) + 0.142 + m / 13.09
                       - 3.14807e-10 * m ^ 6))
  else None.

(** compute_wind_stress at one location, forcing.py:19-79. *)
Definition wind_stress (rho_air : R) (method : string) (u v : R)
  : option (R * R) :=
  match drag_coefficient method (wind_mag u v) with
  | None => None
  | Some cd =>
      let tau := cd * rho_air * wind_mag u v in
      Some (tau * u, tau * v)
  end.
