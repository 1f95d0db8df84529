(** Model of thetis/turbines.py in real arithmetic; expressions are evaluated at one
    point. *)
From Coq Require Import Reals List Lra Arith.
Import ListNotations.
Open Scope R_scope.

(** linearly_interpolate_table, 109-125.  None is the IndexError of a table that is too
    short; the whole expression is built before it is evaluated *)
Fixpoint interpolate_table (xs ys : list R) (y_final x : R) : option R :=
  match xs, ys with
  | x0 :: ((x1 :: rest) as xs'), y0 :: ((y1 :: _) as ys') =>
    let below_x1 := ((x1 - x) * y0 + (x - x0) * y1) / (x1 - x0) in
    let above_x1 := match rest with [] => Some y_final
                    | _ => interpolate_table xs' ys' y_final x end in
    match above_x1 with
    | None => None
    | Some a => Some (if Rlt_dec x x1 then below_x1 else a)
    end
  | _, _ => None
  end.
(** TabulatedThrustTurbine.thrust_coefficient, 139-141, and power_coefficient, 143-145,
    as functions of the speed *)
Definition table_coefficient (speeds values : list R) (umag : R) : option R :=
  match interpolate_table speeds values 0 umag, speeds with
  | Some v, s0 :: _ => Some (if Rlt_dec umag s0 then 0 else v)
  | _, _ => None
  end.

(** power coefficient from the thrust coefficient, 100 and 132; [given] is the option,
    whose value 0 counts as absent *)
Definition default_cp (c_t : R) : R := 0.5 * c_t * (1 + sqrt (1 - c_t)).
Definition constant_cp (given : option R) (c_t : R) : R :=
  match given with
  | Some v => if Req_EM_T v 0 then default_cp c_t else v
  | None => default_cp c_t
  end.

(** TidalTurbine.__init__, 18-34 *)
Record turbine := mkTb { diameter : R; projected_diameter : option R; C_support : R;
                         A_support : R; upwind_correction : bool }.
Definition proj_diameter (t : turbine) : R :=
  match projected_diameter t with
  | Some d => if Req_EM_T d 0 then diameter t else d
  | None => diameter t
  end.
(** _thrust_area, 36-42; [c_t] is the value of thrust_coefficient *)
Definition thrust_area (t : turbine) (c_t : R) : R :=
  let fric := c_t * (PI * diameter t ^ 2 / 4) in
  if Req_EM_T (C_support t) 0 then fric else fric + C_support t * A_support t.
(** velocity_correction, 44-49 *)
Definition velocity_correction (t : turbine) (c_t depth : R) : R :=
  if upwind_correction t
  then 0.5 * (1 + sqrt (1 - thrust_area t c_t / (proj_diameter t * depth))) else 1.
(** friction_coefficient, 51-58 *)
Definition friction_coefficient (t : turbine) (c_t depth : R) : R :=
  thrust_area t c_t / 2 / velocity_correction t c_t depth ^ 2.

(** power, 85-93, without a shear profile, with the speed [u] and the value [c_p] of the
    power coefficient; [rho0] is the reference density *)
Definition power (t : turbine) (rho0 c_t c_p u depth : R) : R :=
  let alpha := velocity_correction t c_t depth in
  0.5 * rho0 * (PI * diameter t ^ 2 / 4) * c_p * (u ^ 3 / alpha ^ 3).
(** rotor_averaged_velocity, 60-83: the samples and their cubic mean *)
Definition rotor_weightings : list R :=
  [0.052; 0.0903; 0.1099; 0.1212; 0.1266; 0.1266; 0.1212; 0.1099; 0.0903; 0.052].
Fixpoint wsum (ws xs : list R) : R :=
  match ws, xs with w :: ws', x :: xs' => w * x + wsum ws' xs' | _, _ => 0 end.
Definition z_val (hub diam : R) (n i : nat) : R :=
  hub - diam / 2 + INR i * (diam / INR (n - 1)).
Definition u_sample (speed beta depth alpha z : R) : R :=
  speed * Rpower (z / (beta * depth)) (1 / alpha).
Definition rotor_average (ws samples : list R) : R :=
  Rpower (wsum ws (map (fun u => u ^ 3) samples)) (1 / 3).

(** DiscreteTidalTurbineFarm.add_turbines, 194-210, at the point (x, y) *)
Definition bump1 (d : R) : R := if Rlt_dec (Rabs d) 1 then exp (1 - 1 / (1 - d ^ 2)) else 0.
Definition add_turbines (radius : R) (coords : list (R * R)) (x y density : R) : R :=
  fold_left (fun acc c => acc + bump1 ((x - fst c) / radius) * bump1 ((y - snd c) / radius)
                                / (radius ^ 2 * 1.45661)) coords density.

(** TurbineFunctionalCallback, 221-258, for one farm *)
Record tfc := mkTfc { time_period : R; integrated_power : R; average_power : R; average_profit : R }.
Definition tfc_init : tfc := mkTfc 0 0 0 0.
Definition tfc_step (dt break_even cost : R) (s : tfc) (power : R) : tfc :=
  let tp := time_period s + dt in
  let ip := integrated_power s + power * dt in
  mkTfc tp ip (ip / tp) (ip / tp - break_even * cost).

(** MinimumDistanceConstraints, 293-366: length, 313-315.  [m] is the array of the 2n
    coordinates *)
Definition length_constraints (n : nat) : nat := (n * (n - 1) / 2)%nat.
(** the loops over i, j with i <= j skipped, 327-330 *)
Definition pairs (n : nat) : list (nat * nat) :=
  flat_map (fun i => flat_map (fun j => if (i <=? j)%nat then [] else [(i, j)]) (seq 0 n)) (seq 0 n).
Definition constraint (d : R) (m : nat -> R) (p : nat * nat) : R :=
  let '(i, j) := p in
  (m (2 * i)%nat - m (2 * j)%nat) ^ 2 + (m (2 * i + 1)%nat - m (2 * j + 1)%nat) ^ 2 - d ^ 2.
Definition constraints (d : R) (n : nat) (m : nat -> R) : list R := map (constraint d m) (pairs n).
Definition update (m : nat -> R) (c : nat) (v : R) : nat -> R :=
  fun k => if (k =? c)%nat then v else m k.
(** the assignments of one row, 360-363 *)
Definition jacobian_row (m : nat -> R) (p : nat * nat) : nat -> R :=
  let '(i, j) := p in
  let r := fun _ => 0 in
  let r := update r (2 * i) (2 * (m (2 * i)%nat - m (2 * j)%nat)) in
  let r := update r (2 * j) (- 2 * (m (2 * i)%nat - m (2 * j)%nat)) in
  let r := update r (2 * i + 1) (2 * (m (2 * i + 1)%nat - m (2 * j + 1)%nat)) in
  update r (2 * j + 1) (- 2 * (m (2 * i + 1)%nat - m (2 * j + 1)%nat)).
Definition jacobian (n : nat) (m : nat -> R) : list (nat -> R) := map (jacobian_row m) (pairs n).
