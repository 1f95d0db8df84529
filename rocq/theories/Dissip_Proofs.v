(** A backward Euler step of a linear system with a symmetric, positive definite mass
    matrix and an operator that takes energy: it can be taken, in one way only, and
    what it does to the energy. *)
From Coq Require Import Reals List Bool Arith Lia Lra FunctionalExtensionality.
From Verif Require Import RK_Model RK_Spec RK_Proofs P_Galerkin LinSys_Proofs.
Open Scope R_scope.

Section Dissip.
Variable n : nat.
Variables mass lin : (nat -> R) -> nat -> R.
Notation work v r := (row_sum n v r).

Hypothesis mass_lin : forall u a v i, mass (fun x => u x + a * v x) i = mass u i + a * mass v i.
Hypothesis lin_lin : forall u a v i, lin (fun x => u x + a * v x) i = lin u i + a * lin v i.
Hypothesis mass_local : forall u v, (forall i, (i < n)%nat -> u i = v i) -> forall i, (i < n)%nat -> mass u i = mass v i.
Hypothesis lin_local : forall u v, (forall i, (i < n)%nat -> u i = v i) -> forall i, lin u i = lin v i.
Hypothesis mass_out : forall u i, (n <= i)%nat -> mass u i = u i.
Hypothesis lin_out : forall u i, (n <= i)%nat -> lin u i = 0.
Hypothesis mass_sym : forall u v, work v (mass u) = work u (mass v).
Hypothesis mass_def : forall u, work u (mass u) <= 0 -> forall i, (i < n)%nat -> u i = 0.
Hypothesis takes : forall u, work u (lin u) <= 0.

Lemma work_plus : forall v r a s, work v (fun i => r i + a * s i) = work v r + a * work v s.
Proof.
  intros v r a s. unfold row_sum. rewrite <- rsum_scal, <- rsum_plus. apply rsum_ext. intros; ring.
Qed.
Lemma work_plus_l : forall v a w r, work (fun i => v i + a * w i) r = work v r + a * work w r.
Proof.
  intros v r a s. unfold row_sum. rewrite <- rsum_scal, <- rsum_plus. apply rsum_ext. intros; ring.
Qed.
Lemma work_ext : forall v r s, (forall i, (i < n)%nat -> r i = s i) -> work v r = work v s.
Proof. intros v r s H. unfold row_sum. apply rsum_ext. intros i Hi. rewrite H by exact Hi. reflexivity. Qed.

Lemma mass_injective : forall u v, (forall i, mass u i = mass v i) -> u = v.
Proof.
  intros u v H. apply functional_extensionality. intro i. destruct (le_lt_dec n i) as [Hi|Hi].
  - rewrite <- (mass_out u i Hi), <- (mass_out v i Hi). apply H.
  - set (d := fun x => u x + (-1) * v x).
    assert (Z : d i = 0).
    { apply (mass_def d); [|exact Hi].
      assert (Q : work d (mass d) = work d (fun _ => 0)).
      { apply work_ext. intros j _. unfold d. rewrite mass_lin, H. ring. }
      rewrite Q. unfold row_sum. rewrite rsum_zero; [lra|]. intros; ring. }
    unfold d in Z. lra.
Qed.

Lemma system_onto : forall tau b, 0 <= tau -> exists u, forall i, mass u i - tau * lin u i = b i.
Proof.
  intros tau b Ht.
  destruct (linear_onto n (fun u i => mass u i - tau * lin u i)) with (b := b) as (c & Hc).
  - intros u a v i _. rewrite mass_lin, lin_lin. ring.
  - intros u v H i Hi. rewrite (mass_local u v H i Hi), (lin_local u v H i). reflexivity.
  - intros u H. apply mass_def.
    assert (Q : work u (mass u) = tau * work u (lin u)).
    { rewrite (work_ext u (mass u) (fun i => tau * lin u i)).
      - unfold row_sum. rewrite <- rsum_scal. apply rsum_ext. intros; ring.
      - intros i Hi. specialize (H i Hi). cbv beta in H. lra. }
    rewrite Q. pose proof (takes u). assert (0 <= tau * - work u (lin u)) by (apply Rmult_le_pos; lra). lra.
  - exists (fun i => if Nat.ltb i n then c i else b i). intro i. destruct (Nat.ltb_spec i n) as [Hi|Hi].
    + rewrite <- (Hc i Hi).
      assert (S : forall j, (j < n)%nat -> (if Nat.ltb j n then c j else b j) = c j).
      { intros j Hj. apply Nat.ltb_lt in Hj. now rewrite Hj. }
      rewrite (mass_local _ c S i Hi), (lin_local _ c S i). reflexivity.
    + rewrite mass_out, lin_out by exact Hi. destruct (Nat.ltb_spec i n); [lia|]. ring.
Qed.

(** the stage equation of the tendency form has a solution *)
Lemma stage_onto : forall (T : (nat -> R) -> nat -> R) f tau base,
  0 <= tau -> (forall i, (n <= i)%nat -> f i = 0) ->
  (forall u i, mass (T u) i = lin u i + f i) ->
  exists k, k = T (fun x => base x + tau * k x).
Proof.
  intros T f tau base Ht Hf HT.
  destruct (system_onto tau (fun i => lin base i + f i) Ht) as (k & Hk).
  exists k. apply mass_injective. intro i. rewrite HT, lin_lin. specialize (Hk i). cbv beta in Hk. lra.
Qed.

(** the energy over one step *)
Lemma step_energy : forall f tau u u',
  (forall i, (i < n)%nat -> mass u' i = mass u i + tau * (lin u' i + f i)) ->
  work u' (mass u') + work (fun i => u' i + (-1) * u i) (mass (fun i => u' i + (-1) * u i))
  = work u (mass u) + 2 * tau * (work u' (lin u') + work u' f).
Proof.
  intros f tau u u' H.
  assert (A : work u' (mass u') = work u' (mass u) + tau * (work u' (lin u') + work u' f)).
  { rewrite (work_ext u' _ _ H).
    rewrite (work_ext u' (fun i => mass u i + tau * (lin u' i + f i)) (fun i => mass u i + tau * (lin u' i + 1 * f i)))
      by (intros; ring).
    rewrite work_plus, (work_plus u' (lin u') 1 f). ring. }
  assert (B : work (fun i => u' i + -1 * u i) (mass (fun i => u' i + -1 * u i))
            = work u' (mass u') - 2 * work u' (mass u) + work u (mass u)).
  { rewrite work_plus_l.
    rewrite (work_ext u' (mass (fun i => u' i + -1 * u i)) (fun i => mass u' i + -1 * mass u i)) by (intros; apply mass_lin).
    rewrite (work_ext u (mass (fun i => u' i + -1 * u i)) (fun i => mass u' i + -1 * mass u i)) by (intros; apply mass_lin).
    rewrite !work_plus. rewrite (mass_sym u' u). ring. }
  lra.
Qed.
End Dissip.
