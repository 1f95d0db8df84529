(** Automatic time steps: /repo/thetis/solver.py:164-302 (limits), :333-405
    (set_time_step), :853-864 (max_h_diff); /repo/thetis/solver2d.py:150-177
    (compute_time_step), :214-248 (set_time_step).

    Real arithmetic. A field is known by its nodal values; [dat.data] is the list
    of the values owned by one process, so a distributed field is a list of lists.
    Collective operations combine the contributions of all processes. *)
From Coq Require Import Reals List Bool Lia Lra ZArith String.
From Verif Require Import Forms_Model.
Import ListNotations.
Open Scope R_scope.

(** ** Reductions *)

(** numpy's min of the local data; [None]: ValueError for a process without nodes. *)
Definition local_min (l : list R) : option R :=
  match l with [] => None | x :: r => Some (fold_left Rmin r x) end.

(** A time step: numpy's division of a positive number by zero is infinite. *)
Inductive ext := Fin (r : R) | PInf.
Definition emin (a b : ext) : ext :=
  match a, b with
  | Fin x, Fin y => Fin (Rmin x y)
  | PInf, y => y
  | x, PInf => x
  end.
Definition ediv (a u : R) : ext := if Req_EM_T u 0 then PInf else Fin (a / u).
Definition escale (k : R) (a : ext) : ext :=
  match a with Fin x => Fin (k * x) | PInf => PInf end.

(** Each process turns its local minimum into a time step with [g]; then
    comm.allreduce(dt, op=MPI.MIN). [None]: some process raised ValueError. *)
Fixpoint local_steps (g : R -> ext) (ranks : list (list R)) : option (list ext) :=
  match ranks with
  | [] => Some []
  | l :: r =>
      match local_min l, local_steps g r with
      | Some m, Some ms => Some (g m :: ms)
      | _, _ => None
      end
  end.
Definition reduced_step (g : R -> ext) (ranks : list (list R)) : option ext :=
  match local_steps g ranks with
  | Some ms => Some (fold_right emin PInf ms)
  | None => None
  end.

(** ** Limits of the 3D solver *)

Inductive family := RTDG | BDMDG | DGDG.

(** compute_dx_factor, solver.py:164-178 *)
Definition dx_factor (fam : family) (p : nat) : R :=
  let q := match fam with DGDG => INR p | _ => INR p + 1 end in
  let l_r := q ^ 2 / 3 + 7 / 6 * q + 1 in
  (1 / 2) * (1 / 4) / l_r.

(** compute_dz_factor, solver.py:180-191 *)
Definition dz_factor (p : nat) : R :=
  let l_r := 1 / INR (Nat.max p 1) in
  (1 / 2) * (1 / 4) / l_r.

(** compute_dt_h_advection, solver.py:238-258 *)
Definition dt_h_advection fam p (u : R) (h : list (list R)) : option ext :=
  reduced_step (fun m => ediv (m * dx_factor fam p) u) h.

(** compute_dt_v_advection, solver.py:260-280 *)
Definition dt_v_advection p (w : R) (v : list (list R)) : option ext :=
  reduced_step (fun m => ediv (m * dz_factor p) w) v.

(** compute_dt_diffusion, solver.py:282-302 *)
Definition diff_factor (fam : family) (leapfrog : bool) : R :=
  (match fam with BDMDG => 18 / 10 | _ => 2 end) * (if leapfrog then 6 / 10 else 1).
Definition dt_diffusion fam p leapfrog (nu : R) (h : list (list R)) : option ext :=
  reduced_step (fun m => ediv ((m * (diff_factor fam leapfrog * dx_factor fam p)) ^ 2) nu) h.

(** numpy.ceil *)
Definition ceil (r : R) : Z := (1 - up (- r))%Z.

Inductive outcome := Ok (dt : R) | ValueError | ZeroDivisionError | AssertionError.

(** set_time_step, solver.py:333-405, in the mode '3d', the only one that
    create_timestepper (solver.py:846) selects: fit to the export interval. The
    other modes are in TimeLoop_Model. dt_2d is the same number. *)
Definition fit_export (T : R) (dt : ext) : outcome :=
  match dt with
  | PInf => ZeroDivisionError
  | Fin d =>
      if Req_EM_T d 0 then ZeroDivisionError
      else let m := ceil (T / d) in
           if Z.eq_dec m 0 then ZeroDivisionError else Ok (T / IZR m)
  end.

(** [hs], [vs]: h_elem_size_2d and v_elem_size_2d; [u], [w], [nu]: the scales;
    [user]: options.timestep, of which only the sign is used when automatic. *)
Definition set_time_step_3d (automatic : bool) fam p leapfrog (cfl3d u w nu user T : R)
    (hs vs : list (list R)) : outcome :=
  match dt_h_advection fam p u hs, dt_v_advection p w vs,
        dt_diffusion fam p leapfrog nu hs with
  | Some a, Some b, Some c =>
      let max_dt_3d := escale cfl3d (emin a (emin b c)) in
      if automatic then
        if Rlt_dec 0 user then fit_export T max_dt_3d else AssertionError
      else fit_export T (Fin user)
  | _, _, _ => ValueError
  end.

(** Largest diffusivity that the explicit schemes accept, solver.py:859-861;
    [d]: horizontal degree of the tracer space, [h]: element size at a node. *)
Definition max_h_diff (d : nat) (dt h : R) : R :=
  1 / 60 / Rmax (INR (d * (d + 1))) 1 / dt * h ^ 2.

(** ** The shallow water limit: an L2 projection *)
Section Projection.
Context {V N : Type}.

(** A scalar finite element space: nodes and values of the nodal basis at the
    quadrature points of the cells. *)
Record space := mk_space { sp_nodes : list N; sp_basis : N -> V -> R }.

Definition feval (S : space) (c : N -> R) (p : V) : R :=
  integral (sp_nodes S) (fun n => sp_basis S n p) c.

(** bath_pos.dat.data[bath_pos.dat.data < min_depth] = min_depth *)
Definition clip (h : R) : R := if Rlt_dec h (5 / 100) then 5 / 100 else h.

(** sqrt(g*bath_pos) + u_scale *)
Definition speed (S : space) (bath : N -> R) (u_scale : R) (p : V) : R :=
  sqrt (981 / 100 * feval S (fun n => clip (bath n)) p) + u_scale.

(** solve(a == l, solution), solver2d.py:170-177 and solver.py:216-230; [pts],
    [w]: quadrature; [csize]: h_elem_size_2d at the quadrature points. *)
Definition cfl_field (pts : list V) (w : V -> R) (S : space) (csize : V -> R)
    (bath : N -> R) (u_scale : R) (sol : N -> R) : Prop :=
  forall n, In n (sp_nodes S) ->
    integral pts w (fun p => sp_basis S n p * feval S sol p)
    = integral pts w (fun p => sp_basis S n p * (csize p / speed S bath u_scale p)).

(** compute_dt_2d, solver.py:193-236 (after the projection). *)
Definition dt_2d fam p (owned : list (list N)) (sol : N -> R) : option ext :=
  match reduced_step Fin (map (map sol) owned) with
  | Some e => Some (escale (dx_factor fam p) e)
  | None => None
  end.

(** set_time_step, solver2d.py:214-248. [flags]: use_automatic_timestep of the
    five timestepper option objects, [None] where the attribute is missing;
    [timestep]: options.timestep, [None] if unset. *)
Definition automatic_2d (flags : list (option bool)) : bool :=
  existsb (fun f => match f with Some true => true | _ => false end) flags.

Definition set_time_step_2d (flags : list (option bool)) (timestep : option R)
    (cfl alpha : R) (owned : list (list N)) (sol : N -> R) : option outcome :=
  if automatic_2d flags then
    match reduced_step (fun m => Fin (cfl * alpha * m)) (map (map sol) owned) with
    | Some (Fin d) => Some (Ok d)
    | Some PInf => None            (* no processes at all: not a run *)
    | None => Some ValueError
    end
  else match timestep with
       | None => Some AssertionError
       | Some t => if Rlt_dec 0 t then Some (Ok t) else Some AssertionError
       end.
End Projection.
Arguments space : clear implicits.
