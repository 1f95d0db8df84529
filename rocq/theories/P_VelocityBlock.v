(** C67: the velocity block of the wave system of the pressure projection.

    The preconditioner and the comment at
    /repo/thetis/timeintegrator.py:363-368 rely on the velocity block being the
    mass matrix, that is, on the pressure gradient term not depending on the
    velocity when the elevation is continuous. *)
From Coq Require Import Reals List Bool Lra.
From Verif Require Import Forms_Model Forms_Spec Forms_Proofs Forms_Examples.
Import ListNotations.
Open Scope R_scope.

Section Block.
Context {V F B : Type}.
Variable E : swe_env V F B.
Notation M := (e_mesh E).
Notation g := (e_g E).

(** A boundary at which the user prescribes the velocity ('uv', 'un' or
    'flux'). *)
Definition velocity_given (b : B) : bool :=
  match e_bnd E (m_marker M b) with
  | Open e => match ex_uv e with USym => false | _ => true end
  | Closed => false
  end.

Lemma uv_ext_given e eta_in (u1 u2 : B -> R * R) b :
  (match ex_uv e with USym => false | _ => true end) = true ->
  uv_ext E e eta_in u1 b = uv_ext E e eta_in u2 b.
Proof. unfold uv_ext. destruct (ex_uv e); [discriminate|reflexivity|reflexivity|reflexivity]. Qed.

Lemma sub2_self (a n : R * R) : dot2 (sub2 a a) n = 0.
Proof. unfold dot2, sub2. cbn [fst snd]. ring. Qed.

(** How the term depends on the velocity: through the boundaries at which the
    velocity is prescribed, and nowhere else. *)
Theorem C67_velocity_block (psi u1 u2 : vfield V F B) (eta eta_old : sfield V F B) :
  e_eta_dg E = false ->
  pressure_gradient E psi u1 eta eta_old - pressure_gradient E psi u2 eta eta_old
  = - g * ds M (fun b =>
      if velocity_given b then
        sqrt (hb E (s_b eta_old) b / g)
        * (dot2 (vb u1 b) (m_nb M b) - dot2 (vb u2 b) (m_nb M b)) * unb M psi b
      else 0).
Proof.
  intros D. unfold pressure_gradient. rewrite D.
  match goal with |- - (?a + ?k * ds M ?f1) - - (?a + ?k * ds M ?f2) = _ =>
    assert (X : ds M f1 - ds M f2 = ds M (fun b =>
      if velocity_given b then
        sqrt (hb E (s_b eta_old) b / g)
        * (dot2 (vb u1 b) (m_nb M b) - dot2 (vb u2 b) (m_nb M b)) * unb M psi b
      else 0))
  end.
  2: { rewrite <- X. ring. }
  unfold ds. rewrite <- integral_minus. apply integral_ext. intros b _.
  unfold velocity_given. destruct (e_bnd E (m_marker M b)) as [|e]; [ring|].
  cbv zeta.
  destruct (match ex_uv e with USym => false | _ => true end) eqn:G.
  - rewrite (uv_ext_given e (s_b eta) (vb u1) (vb u2) b G).
    unfold dot2, sub2. cbn [fst snd]. ring.
  - assert (S : ex_uv e = USym) by (destruct (ex_uv e); [reflexivity|discriminate..]).
    unfold uv_ext. rewrite S, !sub2_self. ring.
Qed.

(** With closed boundaries and boundaries at which only the elevation is
    given, the velocity block is the mass matrix. *)
Theorem C67_velocity_block_mass (psi u1 u2 : vfield V F B) (eta eta_old : sfield V F B) :
  e_eta_dg E = false -> (forall b, In b (m_bnds M) -> velocity_given b = false) ->
  pressure_gradient E psi u1 eta eta_old = pressure_gradient E psi u2 eta eta_old.
Proof.
  intros D N.
  assert (X : pressure_gradient E psi u1 eta eta_old - pressure_gradient E psi u2 eta eta_old = 0).
  { rewrite C67_velocity_block by exact D.
    match goal with |- _ * ds M ?f = 0 => assert (Z : ds M f = 0) end.
    { apply integral_zero. intros b Hb. cbv beta. now rewrite (N b Hb). }
    rewrite Z. ring. }
  lra.
Qed.

End Block.

(** * A basin with continuous elevation; [k] is the condition at the western
    boundary. *)
Definition cg_basin (k : @rbnd nat) : swe_env nat nat nat :=
  mk_env two_cells 10 1000 (fun b e => b + e) (fun _ => 10) (fun _ _ => 10) (fun _ => 10)
    (fun _ => 1) (fun i => match i with 1%nat => k | _ => Closed end) (fun _ => None)
    false true true (Some 1) None
    false false (fun _ _ => 4) (fun _ => 4) (fun _ => (0, 0))
    None None None None None None 0.4 0 None None None None [].

Definition uniform_u (a : R) : vfield nat nat nat := mk_vf (p0 (fun _ => a)) (p0 (fun _ => 0)).

(** A river inflow: the term does depend on the velocity, so the velocity
    block is not the mass matrix. *)
Definition inflow : @rbnd nat := Open (mk_ext None (UNormal (fun _ => -1)) (Some (fun _ => -1))).

Theorem C67_velocity_block_open_refuted :
  exists psi u1 u2 eta,
    e_eta_dg (cg_basin inflow) = false /\
    pressure_gradient (cg_basin inflow) psi u1 eta eta
    <> pressure_gradient (cg_basin inflow) psi u2 eta eta.
Proof.
  exists (uniform_u 1), (uniform_u 1), (uniform_u 0), (p0 (fun _ => 0)).
  split; [reflexivity|]. intros H.
  assert (X := C67_velocity_block (cg_basin inflow) (uniform_u 1) (uniform_u 1) (uniform_u 0)
                 (p0 (fun _ => 0)) (p0 (fun _ => 0)) eq_refl).
  rewrite H in X.
  assert (Y : ds (e_mesh (cg_basin inflow)) (fun b =>
      if velocity_given (cg_basin inflow) b then
        sqrt (hb (cg_basin inflow) (s_b (p0 (fun _ => 0))) b / e_g (cg_basin inflow))
        * (dot2 (vb (uniform_u 1) b) (m_nb (e_mesh (cg_basin inflow)) b)
           - dot2 (vb (uniform_u 0) b) (m_nb (e_mesh (cg_basin inflow)) b))
        * unb (e_mesh (cg_basin inflow)) (uniform_u 1) b
      else 0) = 1).
  { unfold ds, integral, hb, unb, dot2, vb.
    cbn -[Rplus Rmult Rminus Rdiv Ropp IZR sqrt].
    replace ((10 + (0 + 0 * (-1 / 2) + 0 * 0)) / 10) with 1 by field.
    rewrite sqrt_1. field. }
  rewrite Y in X. cbn [cg_basin e_g] in X. lra.
Qed.

(** An elevation boundary meets the hypotheses of [C67_velocity_block_mass]. *)
Definition tide : @rbnd nat := Open (mk_ext (Some (fun _ => 1)) USym None).

Example C67_velocity_block_case psi u1 u2 eta :
  pressure_gradient (cg_basin tide) psi u1 eta eta
  = pressure_gradient (cg_basin tide) psi u2 eta eta.
Proof.
  apply C67_velocity_block_mass; [reflexivity|].
  intros b Hb. unfold velocity_given. cbn in Hb.
  destruct Hb as [<-|[<-|[<-|[<-|[<-|[<-|[]]]]]]]; reflexivity.
Qed.

Print Assumptions C67_velocity_block.
