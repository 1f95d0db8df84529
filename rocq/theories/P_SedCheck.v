(** C94: which grain sizes a sediment model accepts. *)
From Coq Require Import Reals List Bool Lra.
From Verif Require Import Sediment_Model SedCheck_Model.
Import ListNotations.
Open Scope R_scope.

Section C94.
Context {Node : Type}.
Variables size visc : Node -> R.
Variable rhos : R.
Notation d := (dstar_at size visc rhos).
Notation check := (check size visc rhos).

Lemma max_upper : forall l a, let m := fold_left (fun m x => if Rlt_dec m x then x else m) l a in
  a <= m /\ (forall x, In x l -> x <= m) /\ (m = a \/ In m l).
Proof.
  induction l as [|y l IH]; intro a; cbn [fold_left]; [repeat split; [lra|intros x []|left; reflexivity]|].
  destruct (Rlt_dec a y) as [L|L].
  - destruct (IH y) as (H1 & H2 & H3). cbv zeta. split; [lra|]. split.
    + intros x [<-|H]; [exact H1|apply H2, H].
    + destruct H3 as [H3|H3]; right; [left; symmetry; exact H3|right; exact H3].
  - destruct (IH a) as (H1 & H2 & H3). cbv zeta. split; [exact H1|]. split.
    + intros x [<-|H]; [lra|apply H2, H].
    + destruct H3 as [H3|H3]; [left; exact H3|right; right; exact H3].
Qed.
Lemma py_max_some : forall l m, py_max l = Some m -> In m l /\ forall x, In x l -> x <= m.
Proof.
  intros [|a l] m H; [discriminate|]. cbn [py_max] in H. assert (E : fold_left (fun m x => if Rlt_dec m x then x else m) l a = m).
  { set (v := fold_left _ l a) in *. clearbody v. congruence. }
  destruct (max_upper l a) as (H1 & H2 & H3). rewrite E in *. split.
  - destruct H3 as [->|H3]; [left; reflexivity|right; exact H3].
  - intros x [<-|Hx]; [exact H1|apply H2, Hx].
Qed.

(** A process refuses the grains exactly if all its nodes have too small ones; it goes on
    exactly if one of its nodes is fine. *)
Theorem C94_refused : forall owned,
  (check owned = SmallGrain <-> owned <> [] /\ forall x, In x owned -> d x < 1) /\
  (check owned = Built <-> exists x, In x owned /\ 1 <= d x) /\
  (check owned = EmptyMax <-> owned = []).
Proof.
  intro owned. unfold SedCheck_Model.check. destruct owned as [|a l].
  - cbn [map py_max]. split; [|split].
    + split; [discriminate|]. intros [H _]. exfalso. apply H. reflexivity.
    + split; [discriminate|]. intros (x & [] & _).
    + split; reflexivity.
  - destruct (py_max (map d (a :: l))) as [m|] eqn:E; [|discriminate E].
    destruct (py_max_some _ _ E) as (Hi & Hu). apply in_map_iff in Hi. destruct Hi as (y & Ey & Hy).
    assert (Hall : forall x, In x (a :: l) -> d x <= m) by (intros x Hx; apply Hu, in_map, Hx).
    destruct (Rlt_dec m 1) as [L|L].
    + split; [|split].
      * split; [intros _|reflexivity]. split; [discriminate|]. intros x Hx. specialize (Hall x Hx). lra.
      * split; [discriminate|]. intros (x & Hx & H1). specialize (Hall x Hx). lra.
      * split; discriminate.
    + split; [|split].
      * split; [discriminate|]. intros (_ & H). specialize (H y Hy). lra.
      * split; [|reflexivity]. intros _. exists y. split; [exact Hy|lra].
      * split; discriminate.
Qed.

(** With one grain size and one viscosity every process comes to the same answer, that of
    the formula, however the mesh is shared out. *)
Theorem C94_uniform : forall s v parts, (forall x, size x = s) -> (forall x, visc x = v) ->
  (forall p, In p parts -> p <> []) ->
  (1 <= dstar s rhos v -> forall o, In o (check_all size visc rhos parts) -> o = Built) /\
  (dstar s rhos v < 1 -> forall o, In o (check_all size visc rhos parts) -> o = SmallGrain).
Proof.
  intros s v parts Hs Hv Hp.
  assert (Hd : forall x, d x = dstar s rhos v) by (intro x; unfold dstar_at; rewrite Hs, Hv; reflexivity).
  split; intros H o Ho; apply in_map_iff in Ho; destruct Ho as (p & <- & Hin); specialize (Hp p Hin).
  - apply (C94_refused p). destruct p as [|x p]; [contradiction|]. exists x. split; [left; reflexivity|]. rewrite Hd. exact H.
  - apply (C94_refused p). split; [exact Hp|]. intros x _. rewrite Hd. exact H.
Qed.
End C94.

(** ** What the check does not do *)
(** density and viscosity for which the dimensionless size is the size *)
Lemma dstar_unit : forall s, dstar s (2000) (sqrt g_grav) = s.
Proof.
  intro s. unfold dstar, rel_density, rho0.
  assert (G : 0 < g_grav) by (unfold g_grav; lra).
  replace (g_grav * (2000 / 1000 - 1) / sqrt g_grav ^ 2) with 1.
  - unfold Rpower. rewrite ln_1, Rmult_0_r, exp_0. ring.
  - replace (sqrt g_grav ^ 2) with g_grav by (rewrite <- Rsqr_pow2; symmetry; apply Rsqr_sqrt; lra). field. lra.
Qed.
Definition mixed_size (b : bool) : R := if b then 2 else 1 / 2.

(** Grains which are too small in part of the domain are accepted. *)
Theorem C94_some_small_refuted : exists (size visc : bool -> R) rhos nodes x,
  check size visc rhos nodes = Built /\ In x nodes /\ dstar_at size visc rhos x < 1.
Proof.
  exists mixed_size, (fun _ => sqrt g_grav), 2000, [true; false], false. split; [|split].
  - apply C94_refused. exists true. split; [left; reflexivity|]. unfold dstar_at. rewrite dstar_unit. cbn. lra.
  - right; left; reflexivity.
  - unfold dstar_at. rewrite dstar_unit. cbn. lra.
Qed.

(** Whether the constructor raises depends on how the mesh is shared out: the same nodes on
    one process are accepted; on two, one process raises and the other goes on (and waits for
    it in the next collective operation). *)
Theorem C94_parallel_refuted : exists (size visc : bool -> R) rhos (nodes : list bool) parts,
  List.concat parts = nodes /\ check_all size visc rhos [nodes] = [Built] /\
  check_all size visc rhos parts = [Built; SmallGrain].
Proof.
  exists mixed_size, (fun _ => sqrt g_grav), 2000, [true; false], [[true]; [false]]. split; [reflexivity|].
  assert (A : check mixed_size (fun _ => sqrt g_grav) 2000 [true; false] = Built).
  { apply C94_refused. exists true. split; [left; reflexivity|]. unfold dstar_at. rewrite dstar_unit. cbn. lra. }
  assert (D : check mixed_size (fun _ => sqrt g_grav) 2000 [true] = Built).
  { apply C94_refused. exists true. split; [left; reflexivity|]. unfold dstar_at. rewrite dstar_unit. cbn. lra. }
  assert (Q : check mixed_size (fun _ => sqrt g_grav) 2000 [false] = SmallGrain).
  { apply C94_refused. split; [discriminate|]. intros x [<-|[]]. unfold dstar_at. rewrite dstar_unit. cbn. lra. }
  unfold check_all; cbn [map]. rewrite A, D, Q. split; reflexivity.
Qed.

Example C94_example : forall o, In o (check_all (fun _ : nat => 3) (fun _ => sqrt g_grav) 2000 [[0; 1]; [2]]%nat) -> o = Built.
Proof.
  apply (C94_uniform (fun _ : nat => 3) (fun _ => sqrt g_grav) 2000 3 (sqrt g_grav)); try reflexivity.
  - intros p [<-|[<-|[]]]; discriminate.
  - rewrite dstar_unit. lra.
Qed.
Example C94_example_small : check (fun _ : nat => 1 / 3) (fun _ => sqrt g_grav) 2000 [4; 5]%nat = SmallGrain.
Proof. apply C94_refused. split; [discriminate|]. intros x _. unfold dstar_at. rewrite dstar_unit. lra. Qed.

Print Assumptions C94_refused.
Print Assumptions C94_uniform.
Print Assumptions C94_some_small_refuted.
Print Assumptions C94_parallel_refuted.
