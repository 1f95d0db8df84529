(** C90 in 3D: tracers of a coupled 3D run whose data are a combination of those of two others. *)
From Coq Require Import Reals List.
From Verif Require Import Forms3d_Model Super_Spec.
Open Scope R_scope.

Section Spec3.
Context {V F E : Type}.
Local Notation tenv3 := (tenv3 V F E).

(** Two tracers in the same water with the same numerical options: everything but the
    boundary values and the source. *)
Definition same_water3 (K K' : tenv3) : Prop :=
  k_hdg K' = k_hdg K /\ k_vdg K' = k_vdg K /\ k_symm K' = k_symm K /\ k_lax K' = k_lax K /\
  k_uv K' = k_uv K /\ k_dav K' = k_dav K /\ k_w K' = k_w K /\ k_wmesh K' = k_wmesh K /\
  k_muh K' = k_muh K /\ k_muv K' = k_muv K /\ k_sigh K' = k_sigh K /\ k_sigv K' = k_sigv K /\
  k_sipgh K' = k_sipgh K /\ k_sipgv K' = k_sipgv K /\ k_sign0 K' = k_sign0 K.

(** One lateral boundary: the same water outside, the tracer there combined. *)
Definition mixed_bnd3 (a b : R) (o o1 o2 : option (tb3 E)) : Prop :=
  match o, o1, o2 with
  | Some t, Some t1, Some t2 =>
      x_uv t1 = x_uv t /\ x_uv t2 = x_uv t /\ mixed a b (x_value t) (x_value t1) (x_value t2)
  | None, None, None => True
  | _, _, _ => False
  end.

Definition mixed_env3 (a b : R) (K K1 K2 : tenv3) : Prop :=
  same_water3 K K1 /\ same_water3 K K2 /\
  (forall m, mixed_bnd3 a b (k_bnd K m) (k_bnd K1 m) (k_bnd K2 m)) /\
  (forall p, given (k_source K) p = a * given (k_source K1) p + b * given (k_source K2) p).
End Spec3.
