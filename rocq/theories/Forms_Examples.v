(** A concrete mesh for the examples: two unit squares side by side, midpoint
    quadrature, cellwise affine functions. *)
From Coq Require Import Reals List Bool Lra.
From Verif Require Import Forms_Model Forms_Spec Forms_Proofs.
Import ListNotations.
Open Scope R_scope.

(** Boundary edge [b]: the cell it belongs to, its offset from the cell centre
    (half the outward normal) and its marker. *)
Definition edge (b : nat) : nat * (R * R) * nat :=
  match b with
  | 0%nat => (0%nat, (-1/2, 0), 1%nat)
  | 1%nat => (0%nat, (0, -1/2), 2%nat)
  | 2%nat => (0%nat, (0, 1/2), 2%nat)
  | 3%nat => (1%nat, (1/2, 0), 3%nat)
  | 4%nat => (1%nat, (0, -1/2), 2%nat)
  | _ => (1%nat, (0, 1/2), 2%nat)
  end.

Definition two_cells : mesh nat nat nat :=
  mk_mesh [0; 1]%nat (fun _ => 1) [0]%nat (fun _ => 1) (fun _ => (1, 0))
    [0; 1; 2; 3; 4; 5]%nat (fun _ => 1)
    (fun b => (2 * fst (snd (fst (edge b))), 2 * snd (snd (fst (edge b)))))
    (fun b => snd (edge b)).

(** The function with value [a c] at the centre of cell [c] and gradient
    [(p c, q c)] there. Cell 0 is on the '+' side of the facet. *)
Definition affine (a p q : nat -> R) : sfield nat nat nat :=
  mk_s a (fun c => (p c, q c))
    (fun _ s => if s then a 0%nat + p 0%nat / 2 else a 1%nat - p 1%nat / 2)
    (fun _ s => if s then (p 0%nat, q 0%nat) else (p 1%nat, q 1%nat))
    (fun b => let c := fst (fst (edge b)) in let o := snd (fst (edge b)) in
              a c + p c * fst o + q c * snd o)
    (fun b => let c := fst (fst (edge b)) in (p c, q c)).

Definition p0 (a : nat -> R) : sfield nat nat nat := affine a (fun _ => 0) (fun _ => 0).

Definition two (x y : R) : nat -> R := fun c => match c with O => x | _ => y end.

Lemma two_weights : positive_weights two_cells.
Proof. repeat split; intros; cbn; lra. Qed.

Lemma two_normals : unit_normals two_cells.
Proof.
  split; intros x H; cbn in H; unfold dot2; cbn.
  - lra.
  - repeat (destruct H as [<-|H]; [cbn; lra|]). destruct H.
Qed.

(** The midpoint rule integrates affine functions exactly. *)
Lemma affine_gauss : forall a p q a' p' q',
  gauss_v two_cells (mk_vf (affine a p q) (affine a' p' q')).
Proof.
  intros. unfold gauss_v, gauss, dx, dS, ds, integral, divv, unb, dot2, vf, vb, normal.
  cbn -[Rplus Rmult Rminus Rdiv Ropp IZR]. unfold affine, edge; cbn -[Rplus Rmult Rminus Rdiv Ropp IZR].
  field.
Qed.

Lemma p0_affine_gauss : forall h a p q a' p' q',
  gauss_sv two_cells (p0 h) (mk_vf (affine a p q) (affine a' p' q')).
Proof.
  intros. unfold gauss_sv, gauss, dx, dS, ds, integral, divv, unb, dot2, vf, vb, vv, normal.
  cbn -[Rplus Rmult Rminus Rdiv Ropp IZR]. unfold p0, affine, edge; cbn -[Rplus Rmult Rminus Rdiv Ropp IZR].
  field.
Qed.

(** Depth 10 plus elevation, gravity 10, Coriolis, viscosity 1, Manning
    friction; nonlinear, discontinuous spaces, walls unless told otherwise. *)
Definition env_of (bnd : nat -> @rbnd nat) (depth : R -> R -> R)
  (nu : option (sfield nat nat nat)) : swe_env nat nat nat :=
  mk_env two_cells 10 1000 depth (fun _ => 10) (fun _ _ => 10) (fun _ => 10)
    (fun _ => 1) bnd (fun _ => None) true true true (Some 1) nu
    false false (fun _ _ => 4) (fun _ => 4) (fun _ => (0, 0))
    (Some (fun _ => 1 / 10000)) None None None (Some (fun _ => 1 / 50)) None 0.4 0
    None None None None [].

Definition basin : swe_env nat nat nat :=
  env_of (fun _ => Closed) (fun b e => b + e) (Some (affine (fun _ => 1) (fun _ => 0) (fun _ => 0))).
