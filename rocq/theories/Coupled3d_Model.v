(* Model of /repo/thetis/coupled_timeintegrator.py (the coupled 2D-3D time
   integrators used by FlowSolver): which sub-solvers run, in which order, on
   which fields, and the arithmetic the file itself does on the fields.

   A time step is a list of operations; each operation reads some fields and
   overwrites some fields.  Arithmetic written out in coupled_timeintegrator.py
   (assignments, the half-step combinations, the subtraction of the depth
   average, the division by dt) is interpreted literally.  What happens inside
   a sub-solver (a finite element solve, a limiter, a user callback) is an
   arbitrary function [den] of the fields it reads.  A field is represented by
   its vector of degrees of freedom, nat -> R. *)
From Coq Require Import Reals List Bool String Arith ZArith QArith Qcanon.
From Verif Require Import Num.
Import ListNotations.
Local Open Scope R_scope.

(* The 3D equations with an explicit time integrator
   (coupled_timeintegrator.py 201-335: salt_expl, temp_expl, psi_expl,
   tke_expl, mom_expl). *)
Inductive eqn := KSalt | KTemp | KPsi | KTke | KMom.

(* The fields the integrators touch (solver.py 463-613 and the private
   functions allocated at coupled_timeintegrator.py 416-418 and 579-582).
   Frc2/Frc3 stand for everything the user's update_forcings /
   update_forcings3d callbacks change; Hid2, Hid k stand for the private
   storage of a time integrator (old solution, dual vectors, stage vectors);
   Pg stands for density_3d, baroc_head_3d and int_pg_3d together, Mean for
   the n2/m2 fields of the turbulence model and Eddy for eddy viscosity,
   diffusivity, length scale and dissipation rate together. *)
Inductive fld :=
  | Elev2 | Uv2 | Hid2 | Frc2 | Frc3 | Domain | DomOld | UvOld | UvNew
  | Ecg | Est (i : nat) | Mesh | WMesh
  | Uv3 | Dav3 | Dav2 | Split
  | Salt | Temp | Psi | Tke | Hid (k : eqn)
  | W | Pg | Mean | Eddy | Smag.

Definition eqn_eq_dec (a b : eqn) : {a = b} + {a <> b}.
Proof. decide equality. Defined.

Definition fld_eq_dec (a b : fld) : {a = b} + {a <> b}.
Proof. decide equality; [apply Nat.eq_dec | apply eqn_eq_dec]. Defined.

Definition fmem (k : fld) (l : list fld) : bool :=
  existsb (fun x => if fld_eq_dec k x then true else false) l.

(* solution field of each equation *)
Definition sol (k : eqn) : fld :=
  match k with KSalt => Salt | KTemp => Temp | KPsi => Psi | KTke => Tke | KMom => Uv3 end.

(* ------------------------------------------------------------------ *)
(* Operations                                                           *)
(* ------------------------------------------------------------------ *)
Inductive op :=
  | OInit2                  (* swe2d.initialize *)
  | OInitE (k : eqn)        (* <k>_expl.initialize *)
  | OInitI (k : eqn)        (* <k>_impl.initialize *)
  | OForce2 (i : nat)       (* update_forcings called by the 2D integrator *)
  | OForce3 (k : eqn) (i : nat) (* update_forcings3d, timeintegrator.py 756-757 *)
  | OSweStage (i : nat)     (* swe2d.solve_stage(i) *)
  | OSweStep                (* swe2d.advance *)
  | OProj                   (* mesh_updater: project elev_2d -> elev_cg_2d *)
  | OStore (i : nat)        (* elev_fields[i].assign(elev_cg_2d) *)
  | OMeshVel (i : nat)      (* mesh velocity of stage i, from the stored elevations *)
  | OMeshVelLF              (* mesh velocity (default formulation), re-projects elev *)
  | OWZero                  (* w_mesh_3d.assign(0) *)
  | ODomain                 (* elev_domain_2d.assign(elev_2d) *)
  | OMesh                   (* new z coordinates from elev_cg_2d *)
  | OPrep (k : eqn) (i : nat)   (* prepare_stage *)
  | OSolve (k : eqn) (i : nat)  (* solve_stage *)
  | OPredict (k : eqn) | OEvalRhs (k : eqn) | OCorrect (k : eqn)
  | OLimit (k : eqn)        (* tracer_limiter.apply / uv_limiter.apply *)
  | OAvg                    (* uv_averager.solve: uv_3d -> uv_dav_3d *)
  | OExtract                (* extract_surf_dav_uv.solve: uv_dav_3d -> uv_dav_2d *)
  | OCopyDav                (* copy_uv_dav_to_uv_dav_3d.solve *)
  | OSubDav                 (* uv_3d -= uv_dav_3d *)
  | OAddDav                 (* uv_3d += uv_dav_3d *)
  | OSplit                  (* split_residual_2d = uv_dav_2d / dt *)
  | OCopyUv                 (* copy_uv_to_uv_dav_3d.solve *)
  | OBaroc                  (* compute_baroclinic_head *)
  | OW                      (* w_solver.solve *)
  | OTurbPre | OTurbPost    (* turbulence_model.preprocess / postprocess *)
  | OImpl (k : eqn)         (* <k>_impl.advance *)
  | OStab                   (* smagorinsky_diff_solver.solve *)
  | OIc (f : fld)           (* fields.<f>.project(user's initial value) *)
  | OTurbInit               (* turbulence_model.initialize *)
  | OUvOld | OUvNew | ODomOld | ODomHalf | OUvHalf | OUvRestore.

Definition op_eq_dec (a b : op) : {a = b} + {a <> b}.
Proof. decide equality; (apply Nat.eq_dec || apply eqn_eq_dec || apply fld_eq_dec). Defined.

(* Fields the terms of an explicit 3D equation read besides its own solution:
   the dictionaries built at coupled_timeintegrator.py 201-335.  The mesh is
   read by every assembly.  Momentum additionally reads int_pg_3d and the
   (explicit) viscosities; tke/psi read no viscosity. *)
Definition eq_reads (k : eqn) : list fld :=
  match k with
  | KMom => [Uv3; Dav3; W; WMesh; Domain; Mesh; Pg; Eddy; Smag; Frc3]
  | KSalt => [Salt; Uv3; Dav3; W; WMesh; Domain; Mesh; Eddy; Smag; Frc3]
  | KTemp => [Temp; Uv3; Dav3; W; WMesh; Domain; Mesh; Eddy; Smag; Frc3]
  | KPsi => [Psi; Uv3; Dav3; W; WMesh; Domain; Mesh; Frc3]
  | KTke => [Tke; Uv3; Dav3; W; WMesh; Domain; Mesh; Frc3]
  end.

(* What an operation reads. *)
Definition ins (o : op) : list fld :=
  match o with
  | OInit2 => [Elev2; Uv2]
  | OInitE k => [sol k; Mesh]
  | OInitI k => [sol k]
  | OForce2 _ => [Frc2]
  | OForce3 _ _ => [Frc3]
  | OSweStage _ | OSweStep => [Elev2; Uv2; Hid2; Split; Frc2]
  | OProj => [Elev2]
  | OStore _ => [Ecg]
  | OMeshVel i => [Ecg; Est 0; Est 1]
  | OMeshVelLF => [Elev2; Ecg]
  | OWZero => []
  | ODomain => [Elev2]
  | OMesh => [Ecg]
  | OPrep k _ | OEvalRhs k | OPredict k => eq_reads k ++ [Hid k]
  | OSolve k _ | OCorrect k => [Hid k; Mesh]
  | OLimit k => [sol k; Mesh]
  | OAvg => [Uv3; Mesh; Ecg]
  | OExtract => [Dav3; Mesh]
  | OCopyDav => [Dav2; Mesh]
  | OSubDav | OAddDav => [Uv3; Dav3]
  | OSplit => [Dav2]
  | OCopyUv => [Uv2; Mesh]
  | OBaroc => [Salt; Temp; Mesh; Ecg; Frc3]
  | OW => [Uv3; Dav3; Mesh; Frc3]
  | OTurbPre => [Uv3; Pg; Mesh]
  | OTurbPost => [Psi; Tke; Mean; Mesh]
  | OImpl KMom => [Uv3; Eddy; Mesh; Frc3]
  | OImpl KPsi => [Psi; Tke; Mean; Eddy; Mesh]
  | OImpl KTke => [Tke; Mean; Eddy; Mesh]
  | OImpl k => [sol k; Domain; Eddy; Mesh; Frc3]
  | OStab => [Uv3; Mesh]
  | OIc _ => [Mesh]
  | OTurbInit => [Uv3; Pg; Mesh]
  | OUvOld | OUvNew => [Uv2]
  | ODomOld => [Domain]
  | ODomHalf => [Elev2; DomOld]
  | OUvHalf => [Uv2; UvOld]
  | OUvRestore => [UvNew]
  end.

(* What an operation overwrites. *)
Definition outs (o : op) : list fld :=
  match o with
  | OInit2 => [Hid2]
  | OInitE k => [Hid k]
  | OInitI _ => []
  | OForce2 _ => [Frc2]
  | OForce3 _ _ => [Frc3]
  | OSweStage _ | OSweStep => [Elev2; Uv2; Hid2]
  | OProj => [Ecg]
  | OStore i => [Est i]
  | OMeshVel _ => [WMesh]
  | OMeshVelLF => [Ecg; WMesh]
  | OWZero => [WMesh]
  | ODomain => [Domain]
  | OMesh => [Mesh]
  | OPrep k _ | OEvalRhs k => [Hid k]
  | OPredict k => [sol k; Hid k]
  | OSolve k _ | OCorrect k => [sol k; Hid k]
  | OLimit k => [sol k]
  | OAvg => [Dav3]
  | OExtract => [Dav2]
  | OCopyDav => [Dav3]
  | OSubDav | OAddDav => [Uv3]
  | OSplit => [Split]
  | OCopyUv => [Dav3]
  | OBaroc => [Pg]
  | OW => [W]
  | OTurbPre => [Mean]
  | OTurbPost => [Psi; Tke; Eddy]
  | OImpl k => [sol k]
  | OStab => [Smag]
  | OIc f => [f]
  | OTurbInit => [Psi; Tke; Mean; Eddy]
  | OUvOld => [UvOld]
  | OUvNew => [UvNew]
  | ODomOld => [DomOld]
  | ODomHalf => [Domain]
  | OUvHalf => [Uv2]
  | OUvRestore => [Uv2]
  end.

(* ------------------------------------------------------------------ *)
(* Options and the programs                                             *)
(* ------------------------------------------------------------------ *)
Record copt := {
  o_salt : bool;        (* solve_salinity *)
  o_temp : bool;        (* solve_temperature *)
  o_limt : bool;        (* use_limiter_for_tracers *)
  o_limu : bool;        (* use_limiter_for_velocity *)
  o_ale : bool;         (* use_ale_moving_mesh *)
  o_impl : bool;        (* use_implicit_vertical_diffusion *)
  o_baroc : bool;       (* use_baroclinic_formulation *)
  o_turb : bool;        (* use_turbulence *)
  o_gls : bool;         (* turbulence_model_type == 'gls' *)
  o_tadv : bool;        (* use_turbulence_advection *)
  o_smag : bool;        (* use_smagorinsky_viscosity *)
  o_frc2 : bool;        (* update_forcings is given *)
  o_frc3 : bool         (* update_forcings3d is given *)
}.

Definition when (b : bool) (p : list op) : list op := if b then p else [].

(* 'psi_impl' in timesteppers: coupled_timeintegrator.py 302-321 with the
   equations of solver.py 740-772. *)
Definition has_gls (o : copt) : bool := o_turb o && o_gls o.
(* 'psi_expl' in timesteppers: coupled_timeintegrator.py 322-335. *)
Definition has_tadv (o : copt) : bool := has_gls o && o_tadv o.

(* coupled_timeintegrator.py 50-58, 60-70, 43-48: remove the depth average,
   set the coupling term, copy uv_2d *)
Definition remove_dav : list op := [OAvg; OExtract; OCopyDav; OSubDav].
Definition coupling : list op := remove_dav ++ [OSplit; OCopyUv].
(* 72-75 *)
Definition baroclinicity (o : copt) : list op := when (o_baroc o) [OBaroc].
(* 77-91 *)
Definition turbulence (o : copt) : list op :=
  when (o_turb o) ([OTurbPre] ++ when (has_gls o) [OImpl KPsi]
                   ++ when (has_gls o) [OImpl KTke] ++ [OTurbPost]).
(* 93-99 *)
Definition stabilization (o : copt) : list op := when (o_smag o) [OStab].
(* 37-41, utility3d.py 853-875 *)
Definition moving_mesh (o : copt) : list op := when (o_ale o) [OProj; OMesh].

(* CoupledTimeIntegrator.initialize, coupled_timeintegrator.py 369-395 *)
Definition init_prog (o : copt) : list op :=
  [OInit2; OInitE KMom] ++ when (o_impl o) [OInitI KMom]
  ++ when (o_salt o) ([OInitE KSalt] ++ when (o_impl o) [OInitI KSalt])
  ++ when (o_temp o) ([OInitE KTemp] ++ when (o_impl o) [OInitI KTemp])
  ++ when (has_gls o) [OInitI KPsi] ++ when (has_gls o) [OInitI KTke]
  ++ when (has_tadv o) [OInitE KPsi] ++ when (has_tadv o) [OInitE KTke].

(* the equations that are advanced explicitly, in the order of advance() *)
Definition equations (o : copt) : list eqn :=
  (if o_salt o then [KSalt] else []) ++ (if o_temp o then [KTemp] else [])
  ++ (if has_tadv o then [KPsi; KTke] else []) ++ [KMom].

(* limiters, e.g. coupled_timeintegrator.py 663-681 *)
Definition limiter (o : copt) (k : eqn) : list op :=
  match k with
  | KSalt | KTemp => when (o_limt o) [OLimit k]
  | KMom => when (o_limu o) [OLimit KMom]
  | _ => []
  end.

(* CoupledTwoStageRK.store_elevation, 585-596 *)
Definition store_elevation (o : copt) (i : nat) : list op :=
  when (o_ale o) [OProj; OStore i].

(* CoupledTwoStageRK.compute_mesh_velocity, 599-619 *)
Definition compute_mesh_velocity (o : copt) (i : nat) : list op :=
  when (o_ale o) [OProj; OMeshVel i].

(* implicit vertical diffusion, 688-699 (and 543-552 in the leap-frog class) *)
Definition implicit_part (o : copt) : list op :=
  when (o_impl o)
    (when (o_salt o) [OImpl KSalt] ++ when (o_temp o) [OImpl KTemp]
     ++ [OAddDav; OImpl KMom; OSubDav]).

Definition prepare (o : copt) (i : nat) (k : eqn) : list op :=
  when (o_frc3 o) [OForce3 k i] ++ [OPrep k i].

(* One stage of CoupledTwoStageRK.advance, 635-710; n_stages is that of the
   two stage 2D scheme ESDIRKTrapezoid (rungekutta.py 403-408, 975). *)
Definition rk_stage (o : copt) (last : bool) (i : nat) : list op :=
  store_elevation o i ++ when (o_frc2 o) [OForce2 i] ++ [OSweStage i]
  ++ compute_mesh_velocity o i
  ++ flat_map (prepare o i) (equations o)
  ++ [ODomain] ++ moving_mesh o
  ++ flat_map (fun k => OSolve k i :: limiter o k) (equations o)
  ++ coupling
  ++ (if last then implicit_part o ++ baroclinicity o ++ [OW] ++ turbulence o ++ stabilization o
      else baroclinicity o ++ [OW]).

Definition rk_step (o : copt) : list op := rk_stage o false 0 ++ rk_stage o true 1.

(* CoupledLeapFrogAM3.advance, 421-560.  The 2D integrator DIRK22 runs its
   whole step inside advance; its callback may run several times, recorded
   once.  The 3D callback is never called. *)
Definition lf_step (o : copt) : list op :=
  when (o_ale o) [OWZero]
  ++ flat_map (fun k => OPredict k :: limiter o k) (equations o)
  ++ coupling ++ baroclinicity o
  ++ when (o_ale o) [OProj] ++ [OUvOld]
  ++ when (o_frc2 o) [OForce2 0] ++ [OSweStep]
  ++ when (o_ale o) [OMeshVelLF] ++ [OUvNew]
  ++ [ODomOld; ODomHalf; OUvHalf]
  ++ coupling ++ [OUvRestore; OW] ++ baroclinicity o
  ++ map OEvalRhs (equations o)
  ++ [ODomain] ++ moving_mesh o
  ++ flat_map (fun k => OCorrect k :: limiter o k) (equations o)
  ++ (if o_impl o then coupling ++ baroclinicity o ++ turbulence o ++ implicit_part o
                       ++ baroclinicity o ++ [OW] ++ stabilization o
      else coupling ++ baroclinicity o ++ [OW] ++ stabilization o).

(* _update_all_dependencies with the arguments of solver.py 964-969,
   coupled_timeintegrator.py 101-126 *)
Definition all_dependencies (o : copt) : list op :=
  [ODomain] ++ moving_mesh o ++ [OW] ++ baroclinicity o ++ stabilization o.

(* Which initial values are given to FlowSolver.assign_initial_conditions. *)
Record icopt := {
  ic_elev : bool; ic_uv2 : bool; ic_uv3 : bool; ic_salt : bool; ic_temp : bool;
  ic_tke : bool; ic_psi : bool }.

(* FlowSolver.assign_initial_conditions, solver.py 936-971 (on an initialised
   solver that is not continued from an export). *)
Definition ic_prog (o : copt) (c : icopt) : list op :=
  when (ic_elev c) [OIc Elev2]
  ++ when (ic_uv2 c) ([OIc Uv2; OIc Dav2] ++ when (negb (ic_uv3 c)) [OCopyUv])
  ++ when (ic_uv3 c) [OIc Uv3]
  ++ when (ic_salt c && o_salt o) [OIc Salt]
  ++ when (ic_temp c && o_temp o) [OIc Temp]
  ++ when (has_gls o) (when (ic_tke c) [OIc Tke] ++ when (ic_psi c) [OIc Psi] ++ [OTurbInit])
  ++ when (o_ale o) ([ODomain] ++ moving_mesh o)
  ++ init_prog o
  ++ all_dependencies o
  ++ when (o_turb o) [OTurbInit].

(* n calls of advance() on a fresh integrator: the first one initialises
   (432-433, 632-633: if not self._initialized). *)
Definition advances (o : copt) (step : copt -> list op) (n : nat) : list op :=
  match n with
  | O => []
  | S _ => init_prog o ++ List.concat (repeat (step o) n)
  end.

(* ------------------------------------------------------------------ *)
(* Meaning                                                              *)
(* ------------------------------------------------------------------ *)
Definition vec := nat -> R.
Definition state := fld -> vec.

Section Exec.
  (* what the sub-solvers and callbacks compute from the fields they read *)
  Variable den : op -> list vec -> fld -> vec.
  (* the time step, and gamma of LeapFrogAM3 (timeintegrator.py 501) *)
  Variables dt gamma : R.

  (* The value an operation writes into field k.  Literal arithmetic of
     coupled_timeintegrator.py lines: 58 (OSubDav), 69-70 (OSplit), 30
     (ODomain), 443 (OWZero), 473, 478 (OUvOld, OUvNew), 482-485 (ODomOld,
     ODomHalf), 488-491 (OUvHalf, OUvRestore), 596 (OStore), 550, 552, 697, 699
     (OAddDav, OSubDav).  The projection and the z coordinate update are
     external here; see Extrude_Model for the coordinates. *)
  Definition val (o : op) (s : state) (k : fld) : vec :=
    match o with
    | OStore _ => s Ecg
    | OWZero => fun _ => 0
    | ODomain => s Elev2
    | OSubDav => fun i => s Uv3 i - s Dav3 i
    | OAddDav => fun i => s Uv3 i + s Dav3 i
    | OSplit => fun i => s Dav2 i / dt
    | OUvOld => s Uv2
    | OUvNew => s Uv2
    | ODomOld => s Domain
    | ODomHalf => fun i => (0.5 + 2*gamma) * s Elev2 i + (0.5 - 2*gamma) * s DomOld i
    | OUvHalf => fun i => (0.5 + 2*gamma) * s Uv2 i + (0.5 - 2*gamma) * s UvOld i
    | OUvRestore => s UvNew
    | _ => den o (map s (ins o)) k
    end.

  Definition exec (s : state) (o : op) : state :=
    fun k => if fmem k (outs o) then val o s k else s k.

  Definition run (p : list op) (s : state) : state := fold_left exec p s.
End Exec.

(* ------------------------------------------------------------------ *)
(* set_dt                                                               *)
(* ------------------------------------------------------------------ *)
Inductive dt_result :=
  | DtSet (steppers : list string)     (* every listed stepper got dt *)
  | DtAssert                           (* AssertionError *)
  | DtNotImplemented                   (* NotImplementedError *)
  | DtZeroDivision.                    (* ZeroDivisionError for python floats *)

Local Open Scope string_scope.

(* Names in self.timesteppers (181-335), in the sorted order of line 366. *)
Definition all_steppers (o : copt) : list string :=
  ["mom_expl"] ++ (if o_impl o then ["mom_impl"] else [])
  ++ (if has_tadv o then ["psi_expl"] else []) ++ (if has_gls o then ["psi_impl"] else [])
  ++ (if o_salt o then ["salt_expl"] ++ (if o_impl o then ["salt_impl"] else []) else [])
  ++ ["swe2d"]
  ++ (if o_temp o then ["temp_expl"] ++ (if o_impl o then ["temp_impl"] else []) else [])
  ++ (if has_tadv o then ["tke_expl"] else []) ++ (if has_gls o then ["tke_impl"] else []).

Local Close Scope string_scope.
Local Open Scope Qc_scope.

(* numpy.round: half to even, of a non-negative or negative rational *)
Definition round_even (q : Qc) : Z :=
  let f := qfloor q in
  let r := q - qz f in
  if Qcltb r (qq 1 2) then f
  else if Qcltb (qq 1 2) r then (f + 1)%Z
  else if Z.even f then f else (f + 1)%Z.

Definition qabs (q : Qc) : Qc := if Qcltb q 0 then - q else q.

(* numpy.isclose(a, b) with the default tolerances *)
Definition isclose (a b : Qc) : bool :=
  Qcleb (qabs (a - b)) (qq 1 100000000 + qq 1 100000 * qabs b).

(* CoupledTimeIntegrator.set_dt, 350-367 *)
Definition set_dt (o : copt) (dt dt_2d : Qc) : dt_result :=
  if Qceqb dt_2d 0 then DtZeroDivision
  else if negb (isclose (dt / dt_2d) (qz (round_even (dt / dt_2d)))) then DtAssert
  else if negb (Qceqb dt dt_2d) then DtNotImplemented
  else DtSet (all_steppers o).
