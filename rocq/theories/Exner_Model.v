(** Weak forms of the Exner (bed evolution) equation and of the suspended
    sediment equation: /repo/thetis/exner_eq.py:30-170 and
    /repo/thetis/sediment_eq_2d.py:29-140, on the quadrature model of
    Forms_Model.v. The pointwise physics (bedload vector, slide coefficient,
    exchange rates, the decision whether a boundary is closed) is that of
    Sediment_Model.v. *)
From Coq Require Import Reals List String Bool Arith.
From Verif Require Import Forms_Model Sediment_Model.
Import ListNotations.
Open Scope list_scope.
Open Scope R_scope.

Section Exner.
Context {V F B : Type}.
Variable E : swe_env V F B.
Notation M := (e_mesh E).
Implicit Types (test z sed elev c phi : sfield V F B).

(** What the terms read from the options, the fields and the sediment model. *)
Record exner_env := mk_xenv
  { x_morfac : R; x_porosity : R;
    x_integrated : bool;                 (* depth_integrated_sediment *)
    x_erosion : V -> R;                  (* get_erosion_term *)
    x_depo : V -> R;                     (* get_deposition_coefficient *)
    x_qb_v : V -> R * R; x_qb_b : B -> R * R;   (* get_bedload_term at the points *)
    x_slide_v : V -> R; x_slide_f : F -> bool -> R;  (* get_sediment_slide_term: a
                                            multiple of the identity, sediment_model.py:350-353 *)
    x_slide_sigma : F -> bool -> R;      (* sediment_model.sigma *)
    x_suspended : bool; x_bedload : bool; x_slide : bool }.  (* the switches *)

Variable X : exner_env.

(** fac, exner_eq.py:75, 107 *)
Definition fac : R := x_morfac X / (1 - x_porosity X).

(** ExnerSourceTerm.residual, exner_eq.py:68-84: [sed] is the sediment field,
    [elev] the old elevation. *)
Definition exner_source_form test sed elev : R :=
  dx M (fun p => s_v test p *
    exner_source (x_integrated X) (x_morfac X) (x_porosity X) (x_erosion X p) (x_depo X p)
      (hv E elev p) (s_v sed p)).

(** ds(marker) *)
Definition ds_on (k : nat) (g : B -> R) : R :=
  ds M (fun b => if Nat.eqb (m_marker M b) k then g b else 0).

(** ExnerBedloadTerm.residual, exner_eq.py:100-129: the loop over the shallow
    water boundary conditions; None is the TypeError of float(). *)
Definition swe_bcs := list (nat * list (string * bval)).
Fixpoint bedload_boundary (bc : swe_bcs) test : option R :=
  match bc with
  | [] => Some 0
  | (k, funcs) :: rest =>
      match closed_boundary funcs false with
      | None => None
      | Some no_contr =>
          match bedload_boundary rest test with
          | None => None
          | Some f =>
              Some ((if no_contr then 0
                     else ds_on k (fun b => - s_b test b *
                            (fac * fst (x_qb_b X b) * fst (m_nb M b)
                             + fac * snd (x_qb_b X b) * snd (m_nb M b)))) + f)
          end
      end
  end.
Definition bedload_form (bc : swe_bcs) test : option R :=
  match bedload_boundary bc test with
  | None => None
  | Some f =>
      Some (- (f + dx M (fun p => fac * fst (x_qb_v X p) * fst (s_gv test p)
                                  + fac * snd (x_qb_v X p) * snd (s_gv test p))))
  end.

(** ExnerSedimentSlideTerm.residual, exner_eq.py:136-150. The measure dx of this
    term has the default degree, the others 2p+1: one set of points here. *)
Definition slide_form test z : R :=
  let D := x_slide_v X in
  let avgD f := avg (x_slide_f X f) in
  let av q f := scal2 0.5 (add2 (scal2 (x_slide_f X f true) (s_gf q f true))
                                (scal2 (x_slide_f X f false) (s_gf q f false))) in
  - (dx M (fun p => dot2 (s_gv test p) (scal2 (D p) (scal2 (-1) (s_gv z p))))
     + dS M (fun f => - avg (x_slide_sigma X f)
                       * dot2 (jump_n M test f) (scal2 (avgD f) (jump_n M z f)))
     + dS M (fun f => - dot2 (av test f) (jump_n M z f))
     + dS M (fun f => - dot2 (jump_n M test f) (av z f))).

(** ExnerEquation, exner_eq.py:152-176, and the residual of all its terms
    (equation.py: the sum over the labels); None is the TypeError. *)
Definition exner_residual (bc : swe_bcs) test z sed elev : option R :=
  match (if x_bedload X then bedload_form bc test else Some 0) with
  | None => None
  | Some b =>
      Some ((if x_suspended X then exner_source_form test sed elev else 0) + b
            + (if x_slide X then slide_form test z else 0))
  end.

(** ** Suspended sediment *)
(** SedimentTerm.get_bnd_functions, sediment_eq_2d.py:45-56: the boundary values
    of one marker with the conditions [d]. [eq] is get_equilibrium_tracer,
    [factor] the velocity correction factor; the ValueError is [Both]. The value
    stored under 'equilibrium' is not read. *)
Inductive sed_error := Tracer (e : bnd_error) | Both.
Definition sediment_bnd (conservative : bool) (eq : B -> R) (factor : B -> R) elev
  (d : bdict) : @tbnd B + sed_error :=
  match tracer_bnd factor d with
  | inr e => inr (Tracer e)
  | inl tb =>
      match bget "equilibrium" d with
      | None => inl tb
      | Some _ =>
          match bget "value" d with
          | Some _ => inr Both
          | None =>
              let elev_ext b := match tb_elev tb with Some h => h b | None => s_b elev b end in
              let c b := if conservative then eq b * hb E elev_ext b else eq b in
              inl (mk_tb (Some c) (tb_uv tb) (tb_elev tb) (tb_diff_flux tb))
          end
      end
  end.

(** SedimentErosionTerm.residual, sediment_eq_2d.py:85-94 *)
Definition erosion_form (conservative : bool) phi elev : R :=
  dx M (fun p => s_v phi p * sediment_erosion conservative (x_erosion X p) (hv E elev p)).
(** SedimentDepositionTerm.residual, sediment_eq_2d.py:97-105 *)
Definition deposition_form phi c elev : R :=
  dx M (fun p => s_v phi p * sediment_deposition (x_depo X p) (hv E elev p) (s_v c p)).

(** SedimentEquation2D, sediment_eq_2d.py:108-131: the terms it adds. *)
Definition sediment_residual (conservative : bool) (T : tracer_env V F B) phi c
  (uv : vfield V F B) elev (gext : B -> R * R) : R :=
  (if conservative then cons_advection E T phi c uv elev else tracer_advection E T phi c uv elev)
  + tracer_diffusion E T phi c uv elev gext
  + erosion_form conservative phi elev
  + deposition_form phi c elev.
End Exner.

Arguments exner_env : clear implicits.

(** FlowSolver2d.create_equations, solver2d.py:512-523: the Exner equation is only
    built on a horizontally continuous bathymetry space. *)
Definition exner_allowed (continuity : string) : bool := String.eqb continuity "cg".
