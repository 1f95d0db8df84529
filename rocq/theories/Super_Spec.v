(** C90: problems whose data are a combination of those of two others. *)
From Coq Require Import Reals List.
From Verif Require Import Forms_Model P_Galerkin.
Open Scope R_scope.

(** [a] times the first plus [b] times the second *)
Definition mix {X : Type} (a b : R) (u v : X -> R) : X -> R := fun x => a * u x + b * v x.

(** values given in all three problems or in none *)
Definition mixed {X : Type} (a b : R) (o o1 o2 : option (X -> R)) : Prop :=
  match o, o1, o2 with
  | Some v, Some v1, Some v2 => forall x, v x = a * v1 x + b * v2 x
  | None, None, None => True
  | _, _, _ => False
  end.

(** a source that is not given is zero *)
Definition given {X : Type} (o : option (X -> R)) (x : X) : R :=
  match o with Some s => s x | None => 0 end.

Section Spec.
Context {V F B : Type}.
Local Notation tcase := (@tcase V F B).

(** Two tracers in the same water with the same numerical options. *)
Definition same_water (k k' : tcase) : Prop :=
  tc_E k' = tc_E k /\ tc_uv k' = tc_uv k /\ tc_elev k' = tc_elev k /\
  t_dg (tc_T k') = t_dg (tc_T k) /\ t_lax (tc_T k') = t_lax (tc_T k) /\ t_mu (tc_T k') = t_mu (tc_T k) /\
  t_sigma_f (tc_T k') = t_sigma_f (tc_T k) /\ t_sign0 (tc_T k') = t_sign0 (tc_T k).

(** One boundary: the same water outside, tracer and diffusive flux combined. *)
Definition mixed_bnd (a b : R) (o o1 o2 : option (@tbnd B)) : Prop :=
  match o, o1, o2 with
  | Some t, Some t1, Some t2 =>
      tb_uv t1 = tb_uv t /\ tb_uv t2 = tb_uv t /\ tb_elev t1 = tb_elev t /\ tb_elev t2 = tb_elev t /\
      mixed a b (tb_value t) (tb_value t1) (tb_value t2) /\
      mixed a b (tb_diff_flux t) (tb_diff_flux t1) (tb_diff_flux t2)
  | None, None, None => True
  | _, _, _ => False
  end.

(** [k] has the combination of the sources, values and fluxes of [k1] and [k2]. *)
Definition mixed_case (a b : R) (k k1 k2 : tcase) : Prop :=
  same_water k k1 /\ same_water k k2 /\
  (forall m, mixed_bnd a b (t_bnd (tc_T k) m) (t_bnd (tc_T k1) m) (t_bnd (tc_T k2) m)) /\
  (forall p, given (t_source (tc_T k)) p = a * given (t_source (tc_T k1)) p + b * given (t_source (tc_T k2)) p) /\
  (forall x, tc_gext k x = (a * fst (tc_gext k1 x) + b * fst (tc_gext k2 x),
                            a * snd (tc_gext k1 x) + b * snd (tc_gext k2 x))).
End Spec.
