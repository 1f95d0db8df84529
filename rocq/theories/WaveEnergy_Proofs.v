(** The 2D forms are linear in the test function and, for linear equations, in
    the solution. *)
From Coq Require Import Reals List Bool Arith Lia Lra FunctionalExtensionality.
From Verif Require Import Forms_Model Forms_Spec Forms_Proofs P_SWE Galerkin_Model Galerkin_Proofs
  RK_Model RK_Spec RK_Proofs WaveEnergy_Spec LinSys_Proofs.
Import ListNotations.
Open Scope R_scope.

Section Pair.
Context {V F B : Type}.
Local Notation sfield := (sfield V F B).
Local Notation vfield := (vfield V F B).
Notation KS := (@const_s V F B).
Notation ZV := (@zero_v V F B).

Definition add_v (p q : vfield) : vfield := mk_vf (add_s (v_x p) (v_x q)) (add_s (v_y p) (v_y q)).

(** linear in a pair of a vector and a scalar function *)
Definition lin_pair (f : vfield -> sfield -> R) : Prop :=
  f ZV (KS 0) = 0 /\
  forall p r k q s, f (add_v p (scale_v k q)) (add_s r (scale_s k s)) = f p r + k * f q s.

Lemma pair_plus : forall f g, lin_pair f -> lin_pair g -> lin_pair (fun u e => f u e + g u e).
Proof. intros f g (F0 & F1) (G0 & G1). split; [rewrite F0, G0; ring|]. intros. rewrite F1, G1. ring. Qed.
Lemma pair_opp : forall f, lin_pair f -> lin_pair (fun u e => - f u e).
Proof. intros f (F0 & F1). split; [rewrite F0; ring|]. intros. rewrite F1. ring. Qed.
Lemma pair_scal : forall c f, lin_pair f -> lin_pair (fun u e => c * f u e).
Proof. intros c f (F0 & F1). split; [rewrite F0; ring|]. intros. rewrite F1. ring. Qed.
Lemma pair_zero : lin_pair (fun _ _ => 0).
Proof. split; [reflexivity|]. intros. ring. Qed.
Lemma pair_integral {X : Type} : forall (l : list X) w (g : vfield -> sfield -> X -> R),
  (forall x, lin_pair (fun u e => g u e x)) -> lin_pair (fun u e => integral l w (g u e)).
Proof.
  intros l w g H. split.
  - apply integral_zero. intros x _. apply (H x).
  - intros. apply integral_lin. intros x _. apply (H x).
Qed.
Lemma pair_ext : forall f g : vfield -> sfield -> R, (forall u e, f u e = g u e) -> lin_pair g -> lin_pair f.
Proof. intros f g H (G0 & G1). split; [rewrite H; exact G0|]. intros. rewrite !H. apply G1. Qed.

Lemma pair_test : forall f, lin_test f -> lin_pair (fun _ e => f e).
Proof. intros f (F0 & F1). split; [exact F0|]. intros. apply F1. Qed.

(** functions of the mixed space *)
Variable W : @space V F B.
Definition plus_k (u : dof -> R) (k : R) (v : dof -> R) : dof -> R := fun x => u x + k * v x.

Lemma add_s_ext : forall p q : sfield,
  (forall x, s_v p x = s_v q x) -> (forall x, s_gv p x = s_gv q x) ->
  (forall f s, s_f p f s = s_f q f s) -> (forall f s, s_gf p f s = s_gf q f s) ->
  (forall b, s_b p b = s_b q b) -> (forall b, s_gb p b = s_gb q b) -> p = q.
Proof.
  intros [a1 a2 a3 a4 a5 a6] [b1 b2 b3 b4 b5 b6]; cbn; intros.
  f_equal; repeat (apply functional_extensionality; intro); auto.
Qed.

Lemma comb_plus : forall n (c d : nat -> R) k (f : nat -> sfield),
  comb n (fun i => c i + k * d i) f = add_s (comb n c f) (scale_s k (comb n d f)).
Proof.
  intros n c d k f. induction n as [|n IH].
  - apply add_s_ext; intros; cbn [comb add_s scale_s const_s s_v s_gv s_f s_gf s_b s_gb];
    unfold add2, scal2; cbn [fst snd]; try match goal with |- (_, _) = (_, _) => f_equal end; ring.
  - cbn [comb]. rewrite IH. apply add_s_ext; intros; cbn [comb add_s scale_s const_s s_v s_gv s_f s_gf s_b s_gb];
    unfold add2, scal2; cbn [fst snd]; try match goal with |- (_, _) = (_, _) => f_equal end; ring.
Qed.

Lemma uv_plus : forall u k v, uv_of W (plus_k u k v) = add_v (uv_of W u) (scale_v k (uv_of W v)).
Proof. intros. unfold uv_of, add_v, scale_v, plus_k; cbn [v_x v_y]. f_equal; apply comb_plus. Qed.
Lemma eta_plus : forall u k v, eta_of W (plus_k u k v) = add_s (eta_of W u) (scale_s k (eta_of W v)).
Proof. intros. apply comb_plus. Qed.

(** a form in a pair is the sum over the basis functions *)
Lemma uv_step : forall n (c : nat -> R) (f : nat -> vfield),
  mk_vf (comb (S n) c (fun j => v_x (f j))) (comb (S n) c (fun j => v_y (f j)))
  = add_v (mk_vf (comb n c (fun j => v_x (f j))) (comb n c (fun j => v_y (f j)))) (scale_v (c n) (f n)).
Proof. intros. reflexivity. Qed.

Definition lin_v (f : vfield -> R) : Prop :=
  f ZV = 0 /\ forall p k q, f (add_v p (scale_v k q)) = f p + k * f q.

Lemma lin_v_comb : forall f, lin_v f -> forall (u : dof -> R),
  f (uv_of W u) = rsum (n_uv W) (fun j => u (UV j) * f (psi W j)).
Proof.
  intros f (H0 & H1) u. unfold uv_of. induction (n_uv W) as [|n IH].
  - exact H0.
  - rewrite uv_step, H1, IH. cbn [rsum]. ring.
Qed.

Lemma pair_v : forall f : vfield -> R, lin_pair (fun u _ => f u) -> lin_v f.
Proof.
  intros f (H0 & H1). split; [exact H0|]. intros p k q. apply (H1 p (KS 0) k q (KS 0)).
Qed.

Lemma comb_ext : forall n (c d : nat -> R) (f : nat -> sfield), (forall i, (i < n)%nat -> c i = d i) -> comb n c f = comb n d f.
Proof.
  induction n as [|n IH]; intros c d f Hc; [reflexivity|]. cbn [comb].
  rewrite (IH c d f) by (intros; apply Hc; lia). rewrite Hc by lia. reflexivity.
Qed.
Lemma uv_ext_in : forall u v, (forall x, in_space W x -> u x = v x) -> uv_of W u = uv_of W v.
Proof. intros u v Hx. unfold uv_of. f_equal; apply comb_ext; intros i Hi; apply Hx; exact Hi. Qed.
Lemma eta_ext_in : forall u v, (forall x, in_space W x -> u x = v x) -> eta_of W u = eta_of W v.
Proof. intros u v Hx. unfold eta_of. apply comb_ext; intros i Hi; apply Hx; exact Hi. Qed.

(** linear systems for states *)
Lemma in_space_dec : forall x, {in_space W x} + {~ in_space W x}.
Proof. intros [j|i]; cbn [in_space]; apply lt_dec. Qed.

Lemma dof_onto : forall L : (dof -> R) -> dof -> R,
  (forall u k v x, L (plus_k u k v) x = L u x + k * L v x) ->
  (forall u v, (forall x, in_space W x -> u x = v x) -> forall x, in_space W x -> L u x = L v x) ->
  (forall u x, ~ in_space W x -> L u x = u x) ->
  (forall u, (forall x, in_space W x -> L u x = 0) -> forall x, in_space W x -> u x = 0) ->
  forall b, exists u, forall x, L u x = b x.
Proof.
  intros L Hl Hloc Hout Hinj b.
  set (n := (n_uv W + n_eta W)%nat).
  set (dof_at := fun k : nat => if Nat.ltb k (n_uv W) then UV k else ETA (k - n_uv W)).
  set (idx := fun x : dof => match x with UV j => j | ETA i => (n_uv W + i)%nat end).
  assert (I1 : forall x, in_space W x -> (idx x < n)%nat /\ dof_at (idx x) = x).
  { intros [j|i] Hx; cbn [in_space] in Hx; unfold idx, dof_at, n.
    - split; [lia|]. apply Nat.ltb_lt in Hx. rewrite Hx. reflexivity.
    - split; [lia|]. destruct (Nat.ltb_spec (n_uv W + i) (n_uv W)); [lia|]. f_equal. lia. }
  assert (I2 : forall k, (k < n)%nat -> in_space W (dof_at k) /\ idx (dof_at k) = k).
  { intros k Hk. unfold dof_at, n in *. destruct (Nat.ltb_spec k (n_uv W)); cbn [in_space idx]; split; lia. }
  set (up := fun (c : nat -> R) (x : dof) => if in_space_dec x then c (idx x) else b x).
  set (up0 := fun (c : nat -> R) (x : dof) => if in_space_dec x then c (idx x) else 0).
  assert (U0 : forall c x, in_space W x -> up c x = up0 c x).
  { intros c x Hx. unfold up, up0. destruct (in_space_dec x); [reflexivity|contradiction]. }
  destruct (linear_onto n (fun c k => L (up0 c) (dof_at k))) with (b := fun k => b (dof_at k)) as (c & Hc).
  - intros u k v i Hi. rewrite <- Hl. apply Hloc; [|apply I2, Hi].
    intros x Hx. unfold up0, plus_k. destruct (in_space_dec x); [reflexivity|contradiction].
  - intros u v Huv i Hi. apply Hloc; [|apply I2, Hi]. intros x Hx. unfold up0.
    destruct (in_space_dec x); [|reflexivity]. apply Huv, I1, Hx.
  - intros u Hu i Hi. destruct (I2 i Hi) as (J1 & J2).
    assert (Q : up0 u (dof_at i) = 0).
    { apply Hinj; [|exact J1]. intros x Hx. destruct (I1 x Hx) as (K1 & K2). rewrite <- K2. apply Hu, K1. }
    unfold up0 in Q. destruct (in_space_dec (dof_at i)) as [_|N]; [|contradiction]. rewrite J2 in Q. exact Q.
  - exists (up c). intro x. destruct (in_space_dec x) as [Hx|Hx].
    + rewrite (Hloc (up c) (up0 c) (U0 c) x Hx). destruct (I1 x Hx) as (K1 & K2).
      rewrite <- K2 at 1. rewrite (Hc (idx x) K1), K2. reflexivity.
    + rewrite Hout by exact Hx. unfold up. destruct (in_space_dec x); [contradiction|reflexivity].
Qed.
End Pair.

Section Forms.
Context {V F B : Type}.
Local Notation sfield := (sfield V F B).
Local Notation vfield := (vfield V F B).
Variable E : swe_env V F B.
Notation M := (e_mesh E).
Notation g := (e_g E).

Ltac open_ := unfold avg_t, grad_v, grad_f, grad_b, tensor_jump, outer, stress_of, sym_t, inner_t, vec_t, add_t, scal_t,
  jump_vn, jump_n, unb, avg_v, normal, jump, avg, divv, vv, vf, vb, dot2, scal2, add2, sub2;
  cbn [zero_v const_v const_s add_v scale_v add_s scale_s v_x v_y s_v s_gv s_f s_gf s_b s_gb fst snd];
  unfold dot2, scal2, add2, sub2; cbn [fst snd]; unfold Rdiv.
Ltac pt := split; [|intros]; open_; ring.

(** ** In the test function *)
Lemma tp_pressure : forall uv eta eta_old, lin_pair (fun psi _ => pressure_gradient E psi uv eta eta_old).
Proof.
  intros uv eta eta_old. unfold pressure_gradient. destruct (e_eta_dg E); apply pair_opp.
  - apply pair_plus; [apply pair_plus|]; apply pair_scal, pair_integral; intro x; [pt|pt|].
    destruct (e_bnd E (m_marker M x)); cbv zeta; pt.
  - apply pair_plus; apply pair_scal, pair_integral; intro x; [pt|].
    destruct (e_bnd E (m_marker M x)); cbv zeta; pt.
Qed.

Lemma tp_viscosity : forall uv eta eta_old, lin_pair (fun psi _ => viscosity E psi uv eta eta_old).
Proof.
  intros uv eta eta_old. unfold viscosity. destruct (e_nu E) as [nu|]; [|apply pair_zero].
  apply pair_opp. apply pair_plus; [apply pair_plus|].
  - apply pair_integral; intro x. destruct (e_grad_div E) eqn:Eg; unfold stress_of; rewrite Eg; pt.
  - destruct (e_u_jump E); [|apply pair_zero]. apply pair_plus; apply pair_integral; intro x; cbv zeta.
    + destruct (e_grad_div E) eqn:Eg; unfold stress_of; rewrite Eg; generalize (sigma_max E x); intro sg; pt.
    + destruct (e_bnd E (m_marker M x)) as [|e]; [apply pair_zero|].
      destruct (delta_uv E uv eta e x); [|apply pair_zero].
      destruct (e_grad_div E) eqn:Eg; unfold stress_of; rewrite Eg; pt.
  - destruct (e_grad_depth E); [|apply pair_zero]. apply pair_integral; intro x.
    destruct (e_grad_div E) eqn:Eg; unfold stress_of; rewrite Eg; pt.
Qed.

Lemma tp_coriolis : forall uv, lin_pair (fun psi _ => coriolis E psi uv).
Proof.
  intros uv. unfold coriolis. destruct (e_coriolis E); [|apply pair_zero].
  apply pair_opp, pair_integral; intro x. pt.
Qed.
Lemma tp_linear_drag : forall uv, lin_pair (fun psi _ => linear_drag E psi uv).
Proof.
  intros uv. unfold linear_drag. destruct (e_linear E); [|apply pair_zero].
  apply pair_opp, pair_integral; intro x. pt.
Qed.
Lemma tp_boundary_drag : forall uv uv_old, lin_pair (fun psi _ => boundary_drag E psi uv uv_old).
Proof.
  intros uv uv_old. unfold boundary_drag. apply pair_opp, pair_integral; intro x.
  destruct (e_drag_b E (m_marker M x)); [|apply pair_zero]. cbv zeta. pt.
Qed.

(** the bottom drag, zero where it raises an exception *)
Definition qdrag (psi uv uv_old : vfield) (eta_old : sfield) : R :=
  match quadratic_drag E psi uv uv_old eta_old with Some r => r | None => 0 end.

Lemma tp_qdrag : forall uv uv_old eta_old, lin_pair (fun psi _ => qdrag psi uv uv_old eta_old).
Proof.
  intros uv uv_old eta_old. unfold qdrag, quadratic_drag.
  destruct (drag_coefficient E eta_old) as [[cd|]|]; [|apply pair_zero|apply pair_zero].
  apply pair_opp, pair_integral; intro x. pt.
Qed.

Lemma tp_turbine : forall uv uv_old eta_old, lin_pair (fun psi _ => turbine_drag E psi uv uv_old eta_old).
Proof.
  intros uv uv_old eta_old. unfold turbine_drag. apply pair_opp.
  induction (e_farms E) as [|[[[pts w] den] ct] l IH]; cbn [fold_right]; [apply pair_zero|].
  apply pair_plus; [|exact IH]. apply pair_integral; intro x. pt.
Qed.

(** ** In the solution *)
Variable h : R.
Hypothesis Hdep : forall b e, e_depth E b e = h.
Hypothesis Hcl : all_closed E.

Lemma up_pressure : forall psi eta_old, lin_pair (fun uv eta => pressure_gradient E psi uv eta eta_old).
Proof.
  intros psi eta_old. unfold pressure_gradient. destruct (e_eta_dg E); apply pair_opp.
  - apply pair_plus; [apply pair_plus|]; apply pair_scal, pair_integral; intro x; [pt| |].
    + pt.
    + rewrite (Hcl (m_marker M x)). pt.
  - apply pair_plus; apply pair_scal, pair_integral; intro x; [pt|].
    rewrite (Hcl (m_marker M x)). apply pair_zero.
Qed.

Lemma up_hu_div : forall phi uv_old eta_old dh, e_u_jump E = true ->
  lin_pair (fun uv eta => hu_div E phi uv eta uv_old eta_old dh).
Proof.
  intros phi uv_old eta_old dh Hj. unfold hu_div. rewrite Hj.
  apply pair_opp. apply pair_plus; [apply pair_plus|].
  - apply pair_opp, pair_integral; intro x. pt.
  - destruct (e_eta_dg E); [|apply pair_zero]. apply pair_integral; intro x. cbv zeta. pt.
  - apply pair_integral; intro x. rewrite (Hcl (m_marker M x)). apply pair_zero.
Qed.

Lemma up_viscosity : forall psi eta0 eta_old, lin_pair (fun uv _ => viscosity E psi uv eta0 eta_old).
Proof.
  intros psi eta0 eta_old. unfold viscosity. destruct (e_nu E) as [nu|]; [|apply pair_zero].
  apply pair_opp. apply pair_plus; [apply pair_plus|].
  - apply pair_integral; intro x. destruct (e_grad_div E) eqn:Eg; unfold stress_of; rewrite Eg; pt.
  - destruct (e_u_jump E); [|apply pair_zero]. apply pair_plus; apply pair_integral; intro x; cbv zeta.
    + destruct (e_grad_div E) eqn:Eg; unfold stress_of; rewrite Eg; generalize (sigma_max E x); intro sg; pt.
    + rewrite (Hcl (m_marker M x)). apply pair_zero.
  - destruct (e_grad_depth E); [|apply pair_zero]. apply pair_integral; intro x.
    destruct (e_grad_div E) eqn:Eg; unfold stress_of; rewrite Eg; pt.
Qed.

Lemma up_coriolis : forall psi, lin_pair (fun uv _ => coriolis E psi uv).
Proof.
  intros psi. unfold coriolis. destruct (e_coriolis E); [|apply pair_zero].
  apply pair_opp, pair_integral; intro x. pt.
Qed.
Lemma up_linear_drag : forall psi, lin_pair (fun uv _ => linear_drag E psi uv).
Proof.
  intros psi. unfold linear_drag. destruct (e_linear E); [|apply pair_zero].
  apply pair_opp, pair_integral; intro x. pt.
Qed.
Lemma up_boundary_drag : forall psi uv_old, lin_pair (fun uv _ => boundary_drag E psi uv uv_old).
Proof.
  intros psi uv_old. unfold boundary_drag. apply pair_opp, pair_integral; intro x.
  destruct (e_drag_b E (m_marker M x)); [|apply pair_zero]. cbv zeta. pt.
Qed.
Lemma up_qdrag : forall psi uv_old eta_old, lin_pair (fun uv _ => qdrag psi uv uv_old eta_old).
Proof.
  intros psi uv_old eta_old. unfold qdrag, quadratic_drag.
  destruct (drag_coefficient E eta_old) as [[cd|]|]; [|apply pair_zero|apply pair_zero].
  apply pair_opp, pair_integral; intro x. pt.
Qed.
Lemma up_turbine : forall psi uv_old eta_old, lin_pair (fun uv _ => turbine_drag E psi uv uv_old eta_old).
Proof.
  intros psi uv_old eta_old. unfold turbine_drag. apply pair_opp.
  induction (e_farms E) as [|[[[pts w] den] ct] l IH]; cbn [fold_right]; [apply pair_zero|].
  apply pair_plus; [|exact IH]. apply pair_integral; intro x. pt.
Qed.
End Forms.
