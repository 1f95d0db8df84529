(** A square linear system over the reals has a solution for every right-hand
    side if it has no solution but zero for the right-hand side zero. *)
From Coq Require Import Reals List Bool Arith Lia Lra Classical.
From Verif Require Import RK_Model RK_Spec RK_Proofs.
Open Scope R_scope.

Lemma alternative : forall n (a : nat -> nat -> R) (b : nat -> R),
  (exists x, forall i, (i < n)%nat -> rsum n (fun j => a i j * x j) = b i) \/
  (exists x, (exists j, (j < n)%nat /\ x j <> 0) /\
             forall i, (i < n)%nat -> rsum n (fun j => a i j * x j) = 0).
Proof.
  induction n as [|n IH]; intros a b.
  { left. exists (fun _ => 0). intros i Hi. lia. }
  destruct (classic (exists p, (p <= n)%nat /\ a p n <> 0)) as [(p & Hp & Hne)|Hnone].
  2:{ right. exists (fun j => if Nat.eqb j n then 1 else 0). split.
      - exists n. rewrite Nat.eqb_refl. split; [lia|lra].
      - intros i Hi. cbn [rsum]. rewrite Nat.eqb_refl.
        assert (a i n = 0) as ->.
        { destruct (Req_dec (a i n) 0) as [Hz|Hz]; [exact Hz|]. exfalso. apply Hnone. exists i. split; [lia|exact Hz]. }
        assert (rsum n (fun j => a i j * (if Nat.eqb j n then 1 else 0)) = rsum n (fun _ => 0 * 0)) as ->.
        { apply rsum_ext. intros j Hj. replace (Nat.eqb j n) with false by (symmetry; apply Nat.eqb_neq; lia). ring. }
        rewrite rsum_scal. ring. }
  (* exchange the rows p and n *)
  set (q := fun i => if Nat.eqb i n then p else if Nat.eqb i p then n else i).
  assert (Hq : forall i, (i < S n)%nat -> exists k, (k < S n)%nat /\ q k = i).
  { intros i Hi. unfold q. destruct (Nat.eq_dec i p) as [->|Hip].
    - exists n. rewrite Nat.eqb_refl. split; [lia|reflexivity].
    - destruct (Nat.eq_dec i n) as [->|Hin].
      + exists p. replace (Nat.eqb p n) with false by (symmetry; apply Nat.eqb_neq; lia).
        rewrite Nat.eqb_refl. split; [lia|reflexivity].
      + exists i. replace (Nat.eqb i n) with false by (symmetry; apply Nat.eqb_neq; lia).
        replace (Nat.eqb i p) with false by (symmetry; apply Nat.eqb_neq; lia). split; [lia|reflexivity]. }
  assert (Hqn : q n = p) by (unfold q; rewrite Nat.eqb_refl; reflexivity).
  set (d := a p n) in *.
  set (f := fun i => a (q i) n / d).
  assert (Hext : forall c x,
     (forall i, (i < n)%nat -> rsum n (fun j => (a (q i) j - f i * a p j) * x j) = c (q i) - f i * c p) ->
     let y := fun j => if Nat.eqb j n then (c p - rsum n (fun j => a p j * x j)) / d else x j in
     forall i, (i < S n)%nat -> rsum (S n) (fun j => a i j * y j) = c i).
  { intros c x Hx y i Hi. destruct (Hq i Hi) as (k & Hk & <-).
    cbn [rsum]. assert (Hy : forall r, rsum n (fun j => a r j * y j) = rsum n (fun j => a r j * x j)).
    { intro r. apply rsum_ext. intros j Hj. unfold y. replace (Nat.eqb j n) with false by (symmetry; apply Nat.eqb_neq; lia). reflexivity. }
    rewrite Hy. unfold y. rewrite Nat.eqb_refl.
    destruct (Nat.eq_dec k n) as [->|Hkn].
    - rewrite Hqn. fold d. field. exact Hne.
    - assert (Hkl : (k < n)%nat) by lia. specialize (Hx k Hkl).
      rewrite (rsum_ext n _ (fun j => a (q k) j * x j + (- f k) * (a p j * x j))) in Hx by (intros; ring).
      rewrite rsum_plus, rsum_scal in Hx. unfold f in Hx.
      set (s := rsum n (fun j => a p j * x j)) in *. set (u := rsum n (fun j => a (q k) j * x j)) in *.
      assert (u = c (q k) - a (q k) n / d * c p + a (q k) n / d * s) as -> by lra.
      field. exact Hne. }
  destruct (IH (fun i j => a (q i) j - f i * a p j) (fun i => b (q i) - f i * b p)) as [(x & Hx)|(x & (j & Hj & Hxj) & Hx)].
  - left. eexists. apply (Hext b x Hx).
  - right. eexists. split; [|apply (Hext (fun _ => 0) x)].
    + exists j. split; [lia|]. cbv beta. replace (Nat.eqb j n) with false by (symmetry; apply Nat.eqb_neq; lia). exact Hxj.
    + intros i Hi. cbv beta. rewrite (Hx i Hi). ring.
Qed.

(** the same for linear maps given as functions *)
Lemma linear_onto : forall n (L : (nat -> R) -> nat -> R),
  (forall u k v i, (i < n)%nat -> L (fun x => u x + k * v x) i = L u i + k * L v i) ->
  (forall u v, (forall j, (j < n)%nat -> u j = v j) -> forall i, (i < n)%nat -> L u i = L v i) ->
  (forall u, (forall i, (i < n)%nat -> L u i = 0) -> forall i, (i < n)%nat -> u i = 0) ->
  forall b, exists u, forall i, (i < n)%nat -> L u i = b i.
Proof.
  intros n L Hl Hloc Hinj b.
  set (e := fun j : nat => fun i : nat => if Nat.eqb i j then 1 else 0).
  assert (H0 : forall i, (i < n)%nat -> L (fun _ => 0) i = 0).
  { intros i Hi. pose proof (Hl (fun _ => 0) (-1) (fun _ => 0) i Hi) as Q.
    rewrite (Hloc (fun _ => 0 + -1 * 0) (fun _ => 0)) in Q by (try (intros; ring); exact Hi). lra. }
  assert (Hsum : forall m x i, (m <= n)%nat -> (i < n)%nat ->
     L (fun k => if Nat.ltb k m then x k else 0) i = rsum m (fun j => L (e j) i * x j)).
  { induction m as [|m IHm]; intros x i Hm Hi; cbn [rsum].
    - rewrite (Hloc _ (fun _ => 0)); [apply H0; exact Hi| |exact Hi].
      intros j Hj. reflexivity.
    - rewrite <- IHm by (try exact Hi; lia).
      rewrite (Hloc _ (fun k => (if Nat.ltb k m then x k else 0) + x m * e m k)); [|clear; intros j Hj|exact Hi].
      + rewrite Hl by exact Hi. ring.
      + unfold e. destruct (Nat.ltb_spec j (S m)) as [E1|E1], (Nat.ltb_spec j m) as [E2|E2], (Nat.eqb_spec j m) as [E3|E3];
        try (exfalso; lia); try (subst j); ring. }
  assert (Hmat : forall x i, (i < n)%nat -> L x i = rsum n (fun j => L (e j) i * x j)).
  { intros x i Hi. rewrite <- (Hsum n x i (Nat.le_refl n) Hi). apply Hloc; [|exact Hi].
    intros j Hj. apply Nat.ltb_lt in Hj. rewrite Hj. reflexivity. }
  destruct (alternative n (fun i j => L (e j) i) b) as [(x & Hx)|(x & (j & Hj & Hxj) & Hx)].
  - exists x. intros i Hi. rewrite Hmat by exact Hi. apply Hx. exact Hi.
  - exfalso. apply Hxj. apply (Hinj x); [|exact Hj]. intros i Hi. rewrite Hmat by exact Hi. apply Hx. exact Hi.
Qed.
