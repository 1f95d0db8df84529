(** C70, continued: nonlinear contractivity, the rounded coefficient of DIRK33,
    the theta scheme, and the two integrators for moving meshes. *)

From Coq Require Import Reals List String Arith Lia Lra FunctionalExtensionality.
From Verif Require Import RK_Model RK_Spec RK_Proofs RK_Proofs4 TimeInt_Model TimeInt_Spec P_TimeInt
  Cfl_Model Stable_Spec Stable_Proofs P_Stable P_Energy.
Import ListNotations.
Open Scope R_scope.

(** ** Nonlinear problems *)

Record gram_mono (n : nat) (a : nat -> nat -> R) (b : nat -> R) (U : R) (P : nat -> R) (G : nat -> nat -> R) (U' : R) : Prop := {
  m_new : U' = U + 2 * rsum n (fun j => b j * P j) + rsum n (fun i => b i * rsum n (fun j => b j * G i j));
  m_sym : forall i j, G i j = G j i;
  m_stage : forall i, (i < n)%nat -> P i + rsum n (fun l => a i l * G l i) <= 0;
  m_square : forall (s : nat -> R), 0 <= rsum n (fun i => s i * rsum n (fun j => s j * G i j)) }.

Lemma gram_of_monotone {D Env} n a b (F : Env -> (D -> R) -> D -> R) dt (e : nat -> Env) ip u u' v v' :
  (forall i j, (i < n)%nat -> (i < j)%nat -> (j < n)%nat -> a i j = 0) ->
  inner_product ip -> (forall e, monotone ip (F e)) -> 0 <= dt ->
  implicit_step n a b F dt e u u' -> implicit_step n a b F dt e v v' ->
  exists P G, gram_mono n a b (distance2 ip u v) P G (distance2 ip u' v').
Proof.
  intros Hlow Hip Hd Hdt (k & Hk & Hu) (l & Hl & Hv).
  set (w := fun x => u x - v x).
  set (kap := fun i x => dt * (k i x - l i x)).
  exists (fun j => ip w (kap j)), (fun i j => ip (kap i) (kap j)).
  assert (Eal : forall (c : nat -> R) z, along u dt n c k z - along v dt n c l z = w z + rsum n (fun j => c j * kap j z)).
  { intros c z. unfold w, kap. rewrite !along_rsum.
    rewrite (rsum_ext n (fun j => c j * (dt * (k j z - l j z))) (fun j => dt * (c j * k j z - c j * l j z))) by (intros; ring).
    rewrite rsum_scal, rsum_minus. ring. }
  assert (Esq : forall (s : nat -> R),
     ip (fun x => rsum n (fun j => s j * kap j x)) (fun x => rsum n (fun j => s j * kap j x))
     = rsum n (fun i => s i * rsum n (fun j => s j * ip (kap i) (kap j)))).
  { intros s. rewrite (ip_rsum_l ip Hip n s kap). apply rsum_ext. intros i Hi. rewrite (ip_rsum_r ip Hip n s kap (kap i)). reflexivity. }
  constructor.
  - unfold distance2. fold w.
    replace (fun x => u' x - v' x) with (fun x => w x + rsum n (fun j => b j * kap j x))
      by (apply functional_extensionality; intros z; rewrite Hu, Hv; symmetry; apply Eal).
    rewrite (ip_plus_l ip Hip w (fun x => rsum n (fun j => b j * kap j x))).
    rewrite !(ip_plus_r ip Hip w (fun x => rsum n (fun j => b j * kap j x))).
    rewrite (ip_sym ip Hip (fun x => rsum n (fun j => b j * kap j x)) w), (ip_rsum_r ip Hip n b kap w), Esq. ring.
  - intros i j. apply (ip_sym ip Hip).
  - intros i Hi.
    assert (H := Hd (e i) (along u dt (S i) (a i) k) (along v dt (S i) (a i) l)).
    rewrite <- (Hk i Hi), <- (Hl i Hi) in H.
    rewrite (along_full u dt n i (a i) k Hi), (along_full v dt n i (a i) l Hi) in H by (intros; apply Hlow; assumption).
    replace (fun x => along u dt n (a i) k x - along v dt n (a i) l x) with (fun x => w x + rsum n (fun j => a i j * kap j x)) in H
      by (apply functional_extensionality; intros z; symmetry; apply Eal).
    assert (H' : dt * ip (fun x => w x + rsum n (fun j => a i j * kap j x)) (fun x => k i x - l i x) <= 0) by nra.
    rewrite <- (ip_scal_r ip Hip) in H'. change (fun x => dt * (k i x - l i x)) with (kap i) in H'.
    rewrite (ip_plus_l ip Hip w (fun x => rsum n (fun j => a i j * kap j x))), (ip_rsum_l ip Hip n (a i) kap) in H'. exact H'.
  - intros s. rewrite <- Esq. apply Hip.
Qed.

(** Backward Euler, the implicit midpoint rule (both forms) and DIRK23 keep
    solutions of nonlinear problems from drifting apart, whatever the step. *)
Theorem C70_nonlinear_energy name T c : In (name, T, c) implicit_schemes ->
  In name ["BackwardEuler"; "ImplicitMidpoint"; "DIRK23"; "ESDIRKMidpoint"]%string ->
  forall (D Env : Type) (F : Env -> (D -> R) -> D -> R) dt (e : nat -> Env) ip u u' v v',
  inner_product ip -> (forall e, monotone ip (F e)) -> 0 <= dt ->
  implicit_step (ns T) (ta T) (tb T) F dt e u u' -> implicit_step (ns T) (ta T) (tb T) F dt e v v' ->
  distance2 ip u' v' <= distance2 ip u v.
Proof.
  intros Hin Hname D Env F dt e ip u u' v v' Hip Hd Hdt H1 H2.
  cbn [In implicit_schemes] in Hin.
  repeat (destruct Hin as [Hin|Hin]; [apply (f_equal (fun p => fst (fst p))) in Hin as En; apply (f_equal (fun p => snd (fst p))) in Hin;
    cbn [fst snd] in Hin, En; subst T; subst name;
    try (exfalso; cbn [In] in Hname; repeat (destruct Hname as [Hname|Hname]; [discriminate Hname|]); exact Hname)|]); [..|contradiction].
  all: match type of H1 with implicit_step (ns ?T) ?a ?b _ _ _ _ _ =>
         destruct (gram_of_monotone (ns T) a b F dt e ip u u' v v') as (P & G & HG); try assumption end.
  - intros i j Hi Hij Hj; cbn in Hi, Hj; lia.
  - destruct HG as [E Hs Ht Hq]. assert (T0 := Ht 0%nat ltac:(cbn; lia)). assert (Q := Hq (vect [1])). spread E. spread T0. spread Q. lra.
  - intros i j Hi Hij Hj; cbn in Hi, Hj; lia.
  - destruct HG as [E Hs Ht Hq]. assert (T0 := Ht 0%nat ltac:(cbn; lia)). spread E. spread T0. lra.
  - intros i j Hi Hij Hj; cbn in Hi, Hj; cases2 i j 2%nat 2%nat Hi Hj; numbers.
  - destruct HG as [E Hs Ht Hq]. assert (T0 := Ht 0%nat ltac:(cbn; lia)). assert (T1 := Ht 1%nat ltac:(cbn; lia)).
    assert (S10 := Hs 1%nat 0%nat). assert (Q := Hq (vect [1; -1])). spread E. spread T0. spread T1. spread Q.
    assert (Hg : 1/4 < gamma23) by (unfold gamma23; assert (H := sqrt_pos 3); lra).
    set (g := gamma23) in *.
    assert (Q1 : 0 <= (g - 1/4) * (G 0%nat 0%nat - G 0%nat 1%nat - G 1%nat 0%nat + G 1%nat 1%nat)).
    { apply Rmult_le_pos; lra. }
    nra.
  - intros i j Hi Hij Hj; cbn in Hi, Hj; cases2 i j 2%nat 2%nat Hi Hj; numbers.
  - destruct HG as [E Hs Ht Hq]. assert (T1 := Ht 1%nat ltac:(cbn; lia)). assert (S10 := Hs 1%nat 0%nat).
    spread E. spread T1. lra.
Qed.

(** ** The plane, its rotation and its decay *)
Definition plane (u v : bool -> R) : R := u true * v true + u false * v false.
Definition rotation (w : R) (u : bool -> R) (z : bool) : R := if z then - w * u false else w * u true.

Lemma plane_product : inner_product plane.
Proof.
  unfold plane. repeat split; intros; try ring.
  assert (H1 := Rle_0_sqr (u true)). assert (H2 := Rle_0_sqr (u false)). unfold Rsqr in *. lra.
Qed.
Lemma rotation_linear w : linear_operator (rotation w).
Proof. split; intros; unfold rotation; destruct x; ring. Qed.
Lemma rotation_dissipative w : dissipative plane (rotation w).
Proof. intros u. unfold plane, rotation. lra. Qed.

Example C70_energy_example : forall dt u u' e, 0 <= dt ->
  implicit_step (ns DIRK22Tab) (ta DIRK22Tab) (tb DIRK22Tab) (fun (_ : unit) y x => rotation 1 y x + 1) dt e u u' ->
  forall v v', implicit_step (ns DIRK22Tab) (ta DIRK22Tab) (tb DIRK22Tab) (fun (_ : unit) y x => rotation 1 y x + 1) dt e v v' ->
  distance2 plane u' v' <= distance2 plane u v.
Proof.
  intros dt u u' e Hdt H1 v v' H2.
  refine (C70_energy "DIRK22"%string DIRK22Tab None _ _ bool unit (rotation 1) (fun _ _ => 1) dt e plane u u' v v'
    (rotation_linear 1) plane_product (rotation_dissipative 1) Hdt H1 H2).
  - cbn [In implicit_schemes]. do 3 right. left. reflexivity.
  - discriminate.
Qed.

Definition k33 (i : nat) : bool -> R :=
  match i with
  | 0%nat => fun z : bool => if z then (-1743466086000000000/4000000000000759918498258039849) else (4000000000000000000000000/4000000000000759918498258039849)
  | 1%nat => fun z : bool => if z then (-11486932172000467501198239334132352091521000000000/16000000000006079347986064896268123994754513019038167671942801) else (15999999999999105483642064318792000000000000000000000000/16000000000006079347986064896268123994754513019038167671942801)
  | _ => fun z : bool => if z then (-256000000000103237684998849157229784597317524845253961499357707814871506279968853/256000000000145904351665571369861951749971964069535918098249890644453744291956550799626708196) else (64000000000004476087916597006771483341764442099858749498951694630469506500000000000000/64000000000036476087916392842465487937492991017383979524562472661113436072989137699906677049)
  end.

(** With the coefficient of the code, DIRK33 amplifies a slow rotation. *)
Theorem C70_dirk33_energy_refuted :
  exists (L : (bool -> R) -> bool -> R) (ip : (bool -> R) -> (bool -> R) -> R) (e : nat -> unit) u u' v v',
    linear_operator L /\ inner_product ip /\ dissipative ip L /\
    implicit_step (ns DIRK33Tab) (ta DIRK33Tab) (tb DIRK33Tab) (fun _ y x => L y x) 1 e u u' /\
    implicit_step (ns DIRK33Tab) (ta DIRK33Tab) (tb DIRK33Tab) (fun _ y x => L y x) 1 e v v' /\
    distance2 ip u v < distance2 ip u' v'.
Proof.
  pose (u := fun z : bool => if z then 1 else 0). pose (v := fun _ : bool => 0).
  exists (rotation (1/1000000)), plane, (fun _ => tt), u, (along u 1 3 (tb DIRK33Tab) k33), v, (along v 1 3 (tb DIRK33Tab) (fun _ _ => 0)).
  split; [apply rotation_linear|]. split; [apply plane_product|]. split; [apply rotation_dissipative|].
  split; [|split].
  - exists k33. split; [|reflexivity]. intros i Hi. cbn in Hi.
    apply functional_extensionality; intros z.
    assert (Hc : i = 0%nat \/ i = 1%nat \/ i = 2%nat) by lia.
    destruct Hc as [Hc|[Hc|Hc]]; subst i; destruct z; unfold rotation; rewrite along_rsum;
      cbn -[Rplus Rmult Rminus Rdiv Ropp IZR Rinv gamma33 b1_33 b2_33]; unfold b1_33, b2_33, gamma33; lra.
  - exists (fun _ _ => 0). split; [|reflexivity]. intros i Hi. apply functional_extensionality; intros z.
    assert (Hz : forall z, along v 1 (S i) (ta DIRK33Tab i) (fun _ _ => 0) z = 0).
    { intros z'. rewrite along_rsum. rewrite (rsum_ext (S i) (fun j => ta DIRK33Tab i j * 0) (fun j => 0 * 0)) by (intros; ring).
      rewrite rsum_scal. unfold v. ring. }
    unfold rotation. rewrite !Hz. destruct z; ring.
  - unfold distance2, plane. rewrite !along_rsum. unfold u, v.
    cbn -[Rplus Rmult Rminus Rdiv Ropp IZR Rinv gamma33 b1_33 b2_33]. unfold b1_33, b2_33, gamma33. lra.
Qed.

(** ** Crank-Nicolson with offset theta *)

(** [act phi r]: the form [r] tested with [phi] *)
Definition pairing {D : Type} (act : (D -> R) -> (D -> R) -> R) : Prop :=
  (forall p q r, act (fun x => p x + q x) r = act p r + act q r) /\
  (forall c p r, act (fun x => c * p x) r = c * act p r) /\
  (forall p r r', act p (fun x => r x + r' x) = act p r + act p r') /\
  (forall c p r, act p (fun x => c * r x) = c * act p r).
(** a symmetric, positive semi-definite mass form *)
Definition mass_form {D : Type} (act : (D -> R) -> (D -> R) -> R) (mass : (D -> R) -> D -> R) : Prop :=
  linear_operator mass /\ (forall u v, act u (mass v) = act v (mass u)) /\ (forall u, 0 <= act u (mass u)).
(** energy of the difference of two states *)
Definition energy_between {D : Type} (act : (D -> R) -> (D -> R) -> R) (mass : (D -> R) -> D -> R) (u v : D -> R) : R :=
  act (fun x => u x - v x) (mass (fun x => u x - v x)).

Lemma theta_energy {D : Type} act (mass A : (D -> R) -> D -> R) (fn fo : D -> R) dt theta (u u' v v' : D -> R) :
  pairing act -> mass_form act mass -> linear_operator A -> (forall w, act w (A w) <= 0) ->
  0 <= dt -> 1/2 <= theta ->
  theta_step mass (fun w x => A w x + fn x) (fun w x => A w x + fo x) dt theta u u' ->
  theta_step mass (fun w x => A w x + fn x) (fun w x => A w x + fo x) dt theta v v' ->
  energy_between act mass u' v' <= energy_between act mass u v.
Proof.
  intros (Pl & Sl & Pr & Sr) ([Mp Ms] & Hsym & Hpos) [Ap As] Hd Hdt Hth H1 H2.
  set (w := fun x => u x - v x). set (w' := fun x => u' x - v' x).
  set (d := fun x => w' x + (-1) * w x). set (m := fun x => theta * w' x + (1 - theta) * w x).
  assert (Mm : forall p q x, mass (fun z => p z - q z) x = mass p x - mass q x).
  { intros p q x. replace (fun z => p z - q z) with (fun z => p z + (-1) * q z) by (apply functional_extensionality; intros; ring).
    rewrite (Mp p (fun z => -1 * q z)), Ms. ring. }
  assert (Am : forall p q x, A (fun z => p z - q z) x = A p x - A q x).
  { intros p q x. replace (fun z => p z - q z) with (fun z => p z + (-1) * q z) by (apply functional_extensionality; intros; ring).
    rewrite (Ap p (fun z => -1 * q z)), As. ring. }
  assert (E : mass d = fun x => dt * A m x).
  { apply functional_extensionality; intros x. unfold d, m.
    rewrite (Mp w' (fun z => -1 * w z)), Ms, (Ap (fun z => theta * w' z) (fun z => (1 - theta) * w z)), !As.
    unfold w, w'. rewrite !Mm, !Am. specialize (H1 x). specialize (H2 x). lra. }
  assert (K : act m (mass d) <= 0) by (rewrite E, Sr; specialize (Hd m); nra).
  assert (Kd := Hpos d).
  unfold energy_between. fold w w'.
  assert (Em : act m (mass d) = theta * act w' (mass d) + (1 - theta) * act w (mass d)).
  { unfold m. rewrite (Pl (fun z => theta * w' z) (fun z => (1 - theta) * w z)), !Sl. reflexivity. }
  assert (Ed : forall p, act p (mass d) = act p (mass w') - act p (mass w)).
  { intros p. replace (mass d) with (fun x => mass w' x + (-1) * mass w x)
      by (apply functional_extensionality; intros x; unfold d; rewrite (Mp w' (fun z => -1 * w z)), Ms; reflexivity).
    rewrite (Pr p (mass w') (fun x => -1 * mass w x)), Sr. ring. }
  assert (Edd : act d (mass d) = act w' (mass d) - act w (mass d)).
  { unfold d at 1. rewrite (Pl w' (fun z => -1 * w z)), Sl. ring. }
  rewrite Edd, !Ed in Kd. rewrite Em, !Ed in K. rewrite (Hsym w w') in *.
  set (p := act w' (mass w')) in *. set (q := act w' (mass w)) in *. set (r := act w (mass w)) in *. nra.
Qed.

(** Two runs of the theta scheme with the same coefficients, for a linear
    problem with constant operator that does not produce energy *)
Theorem C70_theta_energy {D Val B : Type} keys kind
    (A : (D -> R) -> D -> R) (f : (string -> option Val) -> (string -> option Val) -> B -> D -> R)
    (mass : (D -> R) -> D -> R) solve dt (uf : option (@forcing Val B)) theta t (s1 s2 : @tst D Val B) act :
  exact_solver solve -> pairing act -> mass_form act mass -> linear_operator A -> (forall w, act w (A w) <= 0) ->
  0 <= dt -> 1/2 <= theta -> tco s1 = tco s2 ->
  let Res := fun u _ fl fo b x => A u x + f fl fo b x in
  let c := force_co uf (t + dt) (tco s1) in
  (forall u, exists u', theta_step mass (fun v => Res v v (view kind c) (view kind c) (oth c))
      (fun v => Res v v (view_old kind c) (view_old kind c) (oth c)) dt theta u u') ->
  energy_between act mass (tsol (cn_advance keys kind Res mass solve dt uf theta false t s1))
                          (tsol (cn_advance keys kind Res mass solve dt uf theta false t s2))
  <= energy_between act mass (tsol s1) (tsol s2).
Proof.
  intros Hs Hact Hm HA Hd Hdt Hth Hc Res c Hex.
  destruct (cn_advance_spec keys kind Res mass solve dt uf theta false t s1 Hs (Hex (tsol s1))) as [E1 _].
  destruct (cn_advance_spec keys kind Res mass solve dt uf theta false t s2 Hs) as [E2 _].
  { rewrite <- Hc. apply Hex. }
  rewrite <- Hc in E2. fold c in E1, E2.
  exact (theta_energy act mass A (f (view kind c) (view kind c) (oth c)) (f (view_old kind c) (view_old kind c) (oth c))
    dt theta _ _ _ _ Hact Hm HA Hd Hdt Hth E1 E2).
Qed.

(** The class also accepts offsets below one half, still declared
    unconditionally stable; then long steps amplify even pure decay. *)
Theorem C70_theta_below_half_refuted theta : 0 <= theta < 1/2 ->
  exists dt, 0 < dt /\
  forall u u' : unit -> R, theta_step (fun u => u) (fun w x => - w x) (fun w x => - w x) dt theta u u' ->
  u' tt = - (3 - 2 * theta) / (1 + 2 * theta) * u tt /\ 1 < (3 - 2 * theta) / (1 + 2 * theta).
Proof.
  intros H. exists (4 / (1 - 2 * theta)). split; [apply Rdiv_lt_0_compat; lra|].
  intros u u' Hs. specialize (Hs tt). cbv beta in Hs. split.
  - apply (Rmult_eq_reg_l (1 + 2 * theta)); [|lra].
    replace ((1 + 2 * theta) * (- (3 - 2 * theta) / (1 + 2 * theta) * u tt)) with (- (3 - 2 * theta) * u tt) by (field; lra).
    apply (f_equal (Rmult (1 - 2 * theta))) in Hs.
    replace ((1 - 2 * theta) * (4 / (1 - 2 * theta) * (theta * - u' tt + (1 - theta) * - u tt)))
      with (4 * (theta * - u' tt + (1 - theta) * - u tt)) in Hs by (field; lra).
    lra.
  - apply (Rmult_lt_reg_r (1 + 2 * theta)); [lra|]. unfold Rdiv. rewrite Rmult_assoc, Rinv_l by lra. lra.
Qed.

(** ** Integrators for moving meshes, while the mesh stands still *)
Section Fixed.
Context {D Geo Env : Type}.
Variable massg : Geo -> (D -> R) -> D -> R.
Variable msolve : Geo -> (D -> R) -> D -> R.
Variable F : Env -> (D -> R) -> D -> R.
Variable dt : R.
Variable uf : option (R -> Env -> Env).
Hypothesis Hmass : forall g, linear_operator (massg g).
Hypothesis Hsolve : forall g v, msolve g (massg g v) = v.
Let Resg := fun g e v => massg g (F e v).

Lemma solve_comb g (k : R) p q : msolve g (fun x => massg g p x + k * massg g q x) = fun x => p x + k * q x.
Proof.
  destruct (Hmass g) as [Hp Hs].
  replace (fun x => massg g p x + k * massg g q x) with (massg g (fun x => p x + k * q x)); [apply Hsolve|].
  apply functional_extensionality; intros x. rewrite (Hp p (fun x => k * q x)), Hs. reflexivity.
Qed.

(** SSPRK22ALE with a step up to its coefficient, 1, times the forward Euler limit *)
Theorem C70_ssprk22_bounds (N : (D -> R) -> R) tau t s : convex_measure N ->
  (forall e, euler_bounded N tau (F e)) -> 0 < tau -> 0 <= dt <= ssprk22_cfl * tau ->
  N (asol (ale_step massg Resg msolve dt uf (ageo s) (ageo s) t s)) <= N (asol s).
Proof.
  intros HN HF Ht [H0 H1]. unfold ssprk22_cfl in H1. rewrite Rmult_1_l in H1.
  destruct s as [u mu mo o g e]. cbn [asol ageo].
  set (e1 := force uf (t + 0 * dt) e). set (e2 := force uf (t + 1 * dt) e1).
  set (u1 := fun x => u x + dt * F e1 u x).
  assert (S1 : ale_stage_solve msolve (ale_move g (ale_prepare_stage massg Resg dt uf 0 t (mk_ast u mu mo o g e)))
    = mk_ast u1 (fun x => massg g u x + dt * massg g (F e1 u) x) (massg g u) o g e1).
  { transitivity (mk_ast (msolve g (fun x => massg g u x + dt * massg g (F e1 u) x))
      (fun x => massg g u x + dt * massg g (F e1 u) x) (massg g u) o g e1); [reflexivity|].
    rewrite (solve_comb g dt u (F e1 u)). reflexivity. }
  unfold ale_step. rewrite S1.
  apply Rle_trans with (N (msolve g (fun x => 1/2 * (massg g u x + dt * massg g (F e1 u) x) + 1/2 * massg g u x + 1/2 * (dt * massg g (F e2 u1) x)))).
  { apply Req_le. reflexivity. }
  assert (E : msolve g (fun x => 1/2 * (massg g u x + dt * massg g (F e1 u) x) + 1/2 * massg g u x + 1/2 * (dt * massg g (F e2 u1) x))
    = fun x => (1 - 1/2) * u x + 1/2 * (u1 x + dt * F e2 u1 x)).
  { rewrite <- (Hsolve g (fun x => (1 - 1/2) * u x + 1/2 * (u1 x + dt * F e2 u1 x))). f_equal.
    destruct (Hmass g) as [Hp Hs]. apply functional_extensionality; intros x.
    rewrite (Hp (fun x => (1 - 1/2) * u x) (fun x => 1/2 * (u1 x + dt * F e2 u1 x))), !Hs.
    rewrite (Hp u1 (fun x => dt * F e2 u1 x)), Hs. unfold u1 at 2.
    rewrite (Hp u (fun x => dt * F e1 u x)), Hs. lra. }
  rewrite E. unfold euler_bounded in *.
  assert (B1 := shorter_euler N tau dt (F e1) HN (conj H0 H1) (HF e1) u).
  assert (B2 := shorter_euler N tau dt (F e2) HN (conj H0 H1) (HF e2) u1).
  fold u1 in B1.
  assert (C := HN u (fun x => u1 x + dt * F e2 u1 x) (1/2) ltac:(lra)). cbv beta in C. lra.
Qed.

(** one step of LeapFrogAM3 *)
Lemma lf_step_fixed t (s : @ast D Geo Env) : (forall e v w x, F e (fun z => v z + w z) x = F e v x + F e w x) ->
  (forall e c v x, F e (fun z => c * v z) x = c * F e v x) ->
  let e := force uf (t + dt) (aenv s) in
  let s' := lf_step massg Resg msolve dt uf (ageo s) t s in
  asol s' = (fun x => asol s x + dt * (1/3 * F e (aold s) x + 2/3 * F e (asol s) x + 5/6 * dt * F e (F e (asol s)) x)) /\
  aold s' = asol s /\ ageo s' = ageo s.
Proof.
  intros Fp Fs e s'. unfold s', lf_step, lf_correct, lf_eval_rhs, lf_predict, ale_move, ale_force.
  cbn [asol amu amu_old aold ageo aenv]. split; [|split; reflexivity].
  fold e. set (g := ageo s). set (u := asol s). set (o := aold s). unfold Resg.
  destruct (Hmass g) as [Hp Hs].
  assert (E1 : msolve g (fun x => (1/2 - 2 * lf_gamma) * massg g o x + (1/2 + 2 * lf_gamma) * massg g u x
      + (1 - 2 * lf_gamma) * (dt * massg g (F e u) x))
    = fun x => (1/3 * o x + 2/3 * u x) + 5/6 * dt * F e u x).
  { rewrite <- (Hsolve g (fun x => (1/3 * o x + 2/3 * u x) + 5/6 * dt * F e u x)). f_equal.
    apply functional_extensionality; intros x.
    rewrite (Hp (fun x => 1/3 * o x + 2/3 * u x) (fun x => 5/6 * dt * F e u x)).
    rewrite (Hp (fun x => 1/3 * o x) (fun x => 2/3 * u x)), !Hs. unfold lf_gamma. field. }
  rewrite E1. set (p := fun x => 1/3 * o x + 2/3 * u x + 5/6 * dt * F e u x).
  transitivity (msolve g (fun x => massg g u x + dt * massg g (F e p) x)).
  { f_equal. apply functional_extensionality; intros x. ring. }
  rewrite solve_comb. apply functional_extensionality; intros x. f_equal. f_equal. unfold p.
  rewrite (Fp e (fun z => 1/3 * o z + 2/3 * u z) (fun z => 5/6 * dt * F e u z)).
  rewrite (Fp e (fun z => 1/3 * o z) (fun z => 2/3 * u z)), !Fs. ring.
Qed.
End Fixed.

(** quantity that no step of the oscillator increases; Y is (w dt)^2 *)
Definition lf_v (y a1 a2 b1 b2 : R) : R :=
  (1 - y * y / 9) * (a1 * a1 + a2 * a2 + b1 * b1 + b2 * b2)
  - 2 * ((1 - 11 * (y * y) / 18) * (a1 * b1 + a2 * b2) + y * (1 - 5 * (y * y) / 18) * (a2 * b1 - a1 * b2)).

Lemma lf_v_decay y a1 a2 b1 b2 :
  let c1 := a1 + (- y) * (1/3 * b2 + 2/3 * a2 + 5/6 * (y * a1)) in
  let c2 := a2 + y * (1/3 * b1 + 2/3 * a1 + 5/6 * (- y * a2)) in
  lf_v y c1 c2 a1 a2 = lf_v y a1 a2 b1 b2
   - ((b1 - ((1 - 5/6 * (y * y)) * a1 + 2/3 * y * a2) - (y/3 * c2)) ^ 2
      + (b2 - ((1 - 5/6 * (y * y)) * a2 - 2/3 * y * a1) + (y/3 * c1)) ^ 2).
Proof. intros c1 c2. unfold lf_v, c1, c2. field. Qed.

Lemma lf_v_size y a1 a2 b1 b2 :
  (y * y) * (y * y) * (63 - 25 * (y * y)) / 324 * (a1 * a1 + a2 * a2)
  <= (1 - y * y / 9) * lf_v y a1 a2 b1 b2.
Proof.
  set (p := 1 - y * y / 9). set (q := 1 - 11 * (y * y) / 18). set (r := y * (1 - 5 * (y * y) / 18)).
  assert (H : p * lf_v y a1 a2 b1 b2 - (y * y) * (y * y) * (63 - 25 * (y * y)) / 324 * (a1 * a1 + a2 * a2)
     = (p * b1 - q * a1 - r * a2) ^ 2 + (p * b2 - q * a2 + r * a1) ^ 2).
  { unfold lf_v, p, q, r. field. }
  assert (H1 := pow2_ge_0 (p * b1 - q * a1 - r * a2)). assert (H2 := pow2_ge_0 (p * b2 - q * a2 + r * a1)). lra.
Qed.

(** LeapFrogAM3 on oscillations of any frequency the step resolves to the
    declared limit: the solution stays within a fixed factor of its initial
    size after any number of steps. *)
Theorem C70_leapfrog_bounded {Geo : Type} (massg : Geo -> (bool -> R) -> bool -> R) msolve (w dt : R) (g : Geo) (times : list R) v mu0 mu1 old :
  (forall g, linear_operator (massg g)) -> (forall g u, msolve g (massg g u) = u) ->
  0 < (w * dt) ^ 2 <= leapfrog_cfl ^ 2 ->
  let Resg := fun g (_ : unit) u => massg g (rotation w u) in
  let s0 := lf_initialize massg v (mk_ast old mu0 mu1 old g tt) in
  let s := fold_left (fun s t => lf_step massg Resg msolve dt None g t s) times s0 in
  plane (asol s) (asol s)
  <= 36 * (9 - (w * dt) ^ 2) / ((w * dt) ^ 2 * (63 - 25 * (w * dt) ^ 2)) * plane v v.
Proof.
  intros Hm Hs HY Resg s0 s. set (y := w * dt) in *.
  assert (HY2 : 0 < y * y < 63/25) by (unfold leapfrog_cfl in HY; lra).
  assert (Hinv : ageo s = g /\ lf_v y (asol s true) (asol s false) (aold s true) (aold s false) <= y * y * plane v v).
  { subst s. assert (H0 : ageo s0 = g /\ lf_v y (asol s0 true) (asol s0 false) (aold s0 true) (aold s0 false) <= y * y * plane v v).
    { split; [reflexivity|]. unfold s0, lf_initialize. cbn [asol aold ageo]. apply Req_le. unfold lf_v, plane. field. }
    clearbody s0. revert s0 H0. induction times as [|t times IH]; intros s0 H0; [exact H0|].
    cbn [fold_left]. apply IH. destruct H0 as [Hg H0].
    assert (E := lf_step_fixed massg msolve (fun _ : unit => rotation w) dt None Hm Hs t s0).
    destruct E as (E1 & E2 & E3).
    { intros e a b x. destruct (rotation_linear w) as [Hp _]. apply Hp. }
    { intros e c a x. destruct (rotation_linear w) as [_ Hc]. apply Hc. }
    rewrite Hg in E1, E2, E3. fold Resg in E1, E2, E3.
    set (s1 := lf_step massg Resg msolve dt None g t s0) in *. split; [exact E3|].
    rewrite E2, E1. unfold rotation.
    replace (asol s0 true + dt * (1/3 * (- w * aold s0 false) + 2/3 * (- w * asol s0 false) + 5/6 * dt * (- w * (w * asol s0 true))))
      with (asol s0 true + (- y) * (1/3 * aold s0 false + 2/3 * asol s0 false + 5/6 * (y * asol s0 true))) by (unfold y; ring).
    replace (asol s0 false + dt * (1/3 * (w * aold s0 true) + 2/3 * (w * asol s0 true) + 5/6 * dt * (w * (- w * asol s0 false))))
      with (asol s0 false + y * (1/3 * aold s0 true + 2/3 * asol s0 true + 5/6 * (- y * asol s0 false))) by (unfold y; ring).
    rewrite lf_v_decay.
    match goal with |- _ - (?p ^ 2 + ?q ^ 2) <= _ => assert (H1 := pow2_ge_0 p); assert (H2 := pow2_ge_0 q) end. lra. }
  destruct Hinv as [_ Hv].
  assert (Hsz := lf_v_size y (asol s true) (asol s false) (aold s true) (aold s false)).
  set (V := lf_v y (asol s true) (asol s false) (aold s true) (aold s false)) in *. clearbody V.
  fold (plane (asol s) (asol s)) in Hsz. set (A := plane (asol s) (asol s)) in *. set (Z := plane v v) in *.
  replace (y ^ 2) with (y * y) by ring. set (Y := y * y) in *.
  assert (HD : 0 < Y * (63 - 25 * Y)) by (apply Rmult_lt_0_compat; lra).
  apply (Rmult_le_reg_r (Y * (63 - 25 * Y))); [exact HD|].
  replace (36 * (9 - Y) / (Y * (63 - 25 * Y)) * Z * (Y * (63 - 25 * Y))) with (36 * (9 - Y) * Z) by (field; split; lra).
  assert (K : (1 - Y / 9) * V <= (1 - Y / 9) * (Y * Z)) by (apply Rmult_le_compat_l; [lra|exact Hv]).
  apply (Rmult_le_reg_l Y); [lra|]. nra.
Qed.

(** A frequency and step at the declared limit *)
Example C70_leapfrog_example : 0 < (1/2 * (2 * leapfrog_cfl)) ^ 2 <= leapfrog_cfl ^ 2.
Proof. unfold leapfrog_cfl. split; lra. Qed.

Print Assumptions C70_nonlinear_energy.
Print Assumptions C70_dirk33_energy_refuted.
Print Assumptions C70_theta_energy.
Print Assumptions C70_theta_below_half_refuted.
Print Assumptions C70_ssprk22_bounds.
Print Assumptions C70_leapfrog_bounded.
