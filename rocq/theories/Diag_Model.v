(** Model of /repo/thetis/diagnostics.py (28-357) and of form2indicator,
    /repo/thetis/utility.py:1109-1157.

    Forms are evaluated by quadrature as in Forms_Model.v; linear solves are exact: the
    unknown is any function of the space that satisfies the equation for every test
    function of the space. *)
From Coq Require Import Reals List String Bool Arith.
From Verif Require Import Forms_Model Forms_Spec.
Import ListNotations.
Open Scope R_scope.
Open Scope list_scope.

Section Diagnostics.
Context {V F B : Type}.
Notation mesh := (mesh V F B).
Notation sfield := (sfield V F B).
Notation vfield := (vfield V F B).

(* ------------------------------------------------------------------ *)
(** * VorticityCalculator2D, diagnostics.py:28-80 *)

(** UFL perp: (a, b) -> (-b, a) *)
Definition perp_v (u : vfield) : vfield := mk_vf (scale_s (-1) (v_y u)) (v_x u).

(** the right-hand side L, 63-65 *)
Definition vort_rhs (M : mesh) (u : vfield) (q : sfield) : R :=
  - dx M (fun p => dot2 (vv (perp_v u) p) (s_gv q p))
  + ds M (fun b => s_b q b * unb M (perp_v u) b)
  + dS M (fun f => dot2 (avg_v (perp_v u) f) (jump_n M q f)).
(** a, 62, and solve, 76-78 *)
Definition vort_solution (M : mesh) (space : sfield -> Prop) (u : vfield) (w : sfield) : Prop :=
  space w /\ forall q, space q -> dx M (fun p => s_v w p * s_v q p) = vort_rhs M u q.

(* ------------------------------------------------------------------ *)
(** * Gradient and Hessian recovery, diagnostics.py:83-208 *)

(** GradientRecoverer2D.solve, 96-103: L2 projection of grad(f) *)
Definition grad_solution (M : mesh) (space : vfield -> Prop) (f : sfield) (g : vfield) : Prop :=
  space g /\ forall phi, space phi ->
    dx M (fun p => dot2 (vv g p) (vv phi p)) = dx M (fun p => dot2 (s_gv f p) (vv phi p)).

(** A tensor function: its two rows. *)
Definition tfield := (vfield * vfield)%type.

(** the bilinear form, 162-166: inner(tau, H) + inner(div(tau), g) + inner(phi, g)
    - dot(g, dot(tau, n))*ds - dot(avg(g), jump(tau, n))*dS *)
Definition hess_a (M : mesh) (g : vfield) (H : tfield) (phi : vfield) (tau : tfield) : R :=
  dx M (fun p => dot2 (vv (fst tau) p) (vv (fst H) p) + dot2 (vv (snd tau) p) (vv (snd H) p))
  + dx M (fun p => divv (fst tau) p * s_v (v_x g) p + divv (snd tau) p * s_v (v_y g) p)
  + dx M (fun p => dot2 (vv phi p) (vv g p))
  - ds M (fun b => s_b (v_x g) b * unb M (fst tau) b + s_b (v_y g) b * unb M (snd tau) b)
  - dS M (fun f => avg (s_f (v_x g) f) * jump_vn M (fst tau) f + avg (s_f (v_y g) f) * jump_vn M (snd tau) f).
(** the linear form, 167-169 *)
Definition hess_L (M : mesh) (f : sfield) (phi : vfield) : R :=
  ds M (fun b => s_b f b * unb M phi b)
  + dS M (fun e => avg (s_f f e) * jump_vn M phi e)
  - dx M (fun p => s_v f p * divv phi p).
Definition hess_solution (M : mesh) (VS : vfield -> Prop) (TS : tfield -> Prop) (f : sfield)
  (g : vfield) (H : tfield) : Prop :=
  VS g /\ TS H /\ forall phi tau, VS phi -> TS tau -> hess_a M g H phi tau = hess_L M f phi.

(* ------------------------------------------------------------------ *)
(** * KineticEnergyCalculator, diagnostics.py:211-249 *)

(** the expression at one point; [uv] has two or three components *)
Definition ke_at (density : R) (horizontal : bool) (uv : list R) : R :=
  let u_sq := if horizontal then nth 0 uv 0 * nth 0 uv 0 + nth 1 uv 0 * nth 1 uv 0
              else fold_right (fun c s => c * c + s) 0 uv in
  0.5 * density * u_sq.

(* ------------------------------------------------------------------ *)
(** * Argument checks *)

Inductive outcome := Accepted | ValueError | NameError | NotImplemented.

(** VorticityCalculator2D, 52-57 *)
Definition check_vorticity (dim : nat) (continuity : string) : outcome :=
  if negb (Nat.eqb dim 2) then ValueError
  else if negb (String.eqb continuity "cg") then ValueError else Accepted.
(** HessianRecoverer2D, 130-151; the gradient space is optional *)
Definition check_hessian (dim : nat) (continuity : string) (shape : list nat)
  (gradient : option (string * list nat)) : outcome :=
  if negb (Nat.eqb dim 2) then ValueError
  else if negb (String.eqb continuity "cg") then ValueError
  else if negb (match shape with [2%nat; 2%nat] => true | _ => false end) then ValueError
  else match gradient with
       | None => Accepted
       | Some (c, s) =>
         if negb (String.eqb c "cg") then ValueError
         else if negb (match s with [2%nat] => true | _ => false end) then ValueError
         else Accepted
       end.
(** DualWeightedResidual2D and subclasses, 272-290, 315-320, 343-348: [stepper] is
    swe_timestepper_type or tracer_timestepper_type.  The message for a wrong mesh mentions the
    undefined name func. *)
Definition check_dwr (stepper : string) (dim : nat) (same_mesh : bool) : outcome :=
  if negb (String.eqb stepper "SteadyState" || String.eqb stepper "CrankNicolson")%bool then NotImplemented
  else if negb (Nat.eqb dim 2) then ValueError
  else if negb same_mesh then NameError else Accepted.

(* ------------------------------------------------------------------ *)
(** * form2indicator, utility.py:1109-1157 *)

(** A 0-form: the integrands of its integrals, one list per type of measure (integrals over
    parts of the mesh are integrands that vanish elsewhere). *)
Record form0 := mk_form { f_cell : list (V -> R); f_ext : list (B -> R); f_int : list (F -> R) }.
Definition sum_forms {X} (l : list (X -> R)) (x : X) : R := fold_right (fun g s => g x + s) 0 l.
Definition value0 (M : mesh) (A : form0) : R :=
  dx M (sum_forms (f_cell A)) + ds M (sum_forms (f_ext A)) + dS M (sum_forms (f_int A)).

(** Which cell a quadrature point belongs to. *)
Record owners := mk_own { o_cell : V -> nat; o_bnd : B -> nat; o_facet : F -> bool -> nat }.
Definition ind (K : nat) (c : nat) : R := if Nat.eqb c K then 1 else 0.
(** CellVolume *)
Definition volume (M : mesh) (O : owners) (K : nat) : R := dx M (fun p => ind K (o_cell O p)).
(** the assembled right-hand side for the test function of cell [K], 1139-1149: h is evaluated
    at the point, that is in the cell the point belongs to *)
Definition ind_rhs (M : mesh) (O : owners) (A : form0) (K : nat) : R :=
  fold_right (fun g s => ds M (fun b => volume M O (o_bnd O b) * ind K (o_bnd O b) * g b) + s) 0 (f_ext A)
  + fold_right (fun g s => dS M (fun e => volume M O (o_facet O e true) * ind K (o_facet O e true) * g e)
                         + dS M (fun e => volume M O (o_facet O e false) * ind K (o_facet O e false) * g e) + s) 0 (f_int A)
  + fold_right (fun g s => dx M (fun p => volume M O (o_cell O p) * ind K (o_cell O p) * g p) + s) 0 (f_cell A).
(** the solve: the mass matrix of P0 is diagonal, 1151-1157 *)
Definition indicator (M : mesh) (O : owners) (A : form0) (K : nat) : R := ind_rhs M O A K / volume M O K.
End Diagnostics.
