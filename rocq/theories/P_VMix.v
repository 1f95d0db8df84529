(** C87: vertical mixing and friction taken implicitly never add tracer variance or
    kinetic energy, whatever the time step. *)
From Coq Require Import Reals List Bool Arith Lia Lra FunctionalExtensionality.
From Verif Require Import Forms_Model Forms_Proofs RK_Model RK_Spec RK_Proofs P_RungeKutta TimeInt_Model
  Galerkin_Proofs P_Galerkin LinSys_Proofs Dissip_Proofs Forms3d_Model Forms3d_Spec P_Tracer3d P_Tracer3d_Bounds Galerkin3d_Model Galerkin3d_Proofs
  P_Galerkin3d Mom3d_Model P_Mom3d VMix_Model VMix_Spec.
Import ListNotations.
Open Scope R_scope.

Section Common.
Context {V F E : Type}.
Variable M : mesh3 V F E.

Lemma comb3_ext : forall n c d (phi : nat -> sfield3 V F E), (forall i, (i < n)%nat -> c i = d i) -> comb3 n c phi = comb3 n d phi.
Proof.
  induction n as [|n IH]; intros c d phi H; [reflexivity|].
  cbn [comb3]. rewrite (IH c d) by (intros; apply H; lia). rewrite (H n) by lia. reflexivity.
Qed.

Lemma s3_eq : forall (p q : sfield3 V F E), (forall x, a_v p x = a_v q x) -> (forall x, a_gv p x = a_gv q x) ->
  (forall f s, a_f p f s = a_f q f s) -> (forall f s, a_gf p f s = a_gf q f s) ->
  (forall e, a_e p e = a_e q e) -> (forall e, a_ge p e = a_ge q e) -> p = q.
Proof.
  intros [] []; cbn; intros. f_equal; repeat (apply functional_extensionality; intro); auto.
Qed.

Lemma comb3_plus : forall n c a d (phi : nat -> sfield3 V F E),
  comb3 n (fun i => c i + a * d i) phi = add_s (comb3 n c phi) (scale3 a (comb3 n d phi)).
Proof.
  induction n as [|n IH]; intros c a d phi; cbn [comb3].
  - apply s3_eq; intros; cbn; unfold add3, scal3, zero3; cbn [c0 c1 c2]; try ring; f_equal; ring.
  - rewrite IH. apply s3_eq; intros; cbn; unfold add3, scal3; cbn [c0 c1 c2]; try ring; f_equal; ring.
Qed.

Lemma work_test : forall (f : sfield3 V F E -> R), lin_test3 f -> forall n v phi,
  row_sum n v (fun i => if Nat.ltb i n then f (phi i) else 0) = f (comb3 n v phi).
Proof.
  intros f Hf n v phi. rewrite (lin3_comb f Hf). unfold row_sum. apply rsum_ext.
  intros i Hi. apply Nat.ltb_lt in Hi. now rewrite Hi.
Qed.

(** linear in a vector valued test function *)
Definition lin_testv (f : vfield3 V F E -> R) : Prop :=
  exists fx fy fz, lin_test3 fx /\ lin_test3 fy /\ lin_test3 fz /\
  forall psi, f psi = fx (w_x psi) + fy (w_y psi) + fz (w_z psi).

Lemma work_testv : forall (f : vfield3 V F E -> R), lin_testv f -> forall n v psi,
  row_sum n v (fun i => if Nat.ltb i n then f (psi i) else 0) = f (vcomb3 n v psi).
Proof.
  intros f (fx & fy & fz & Hx & Hy & Hz & Hf) n v psi. rewrite Hf. cbn [vcomb3 w_x w_y w_z].
  rewrite (lin3_comb fx Hx), (lin3_comb fy Hy), (lin3_comb fz Hz). unfold row_sum.
  rewrite <- !rsum_plus. apply rsum_ext. intros i Hi. apply Nat.ltb_lt in Hi. rewrite Hi, Hf. ring.
Qed.

(** The loss is what the form takes. *)
Lemma loss_form : forall dg (sig : F -> bool -> R) sipg mu c,
  let pen f := larger (sipg * sig f true) (sipg * sig f false) in
  mixing_loss M dg pen mu c
  = dx3 M (fun p => c2 (a_gv c p) * (a_v mu p * c2 (a_gv c p)))
    + (if dg then
         dS_h M (fun f =>
           let sp := sipg * sig f true in
           let sm := sipg * sig f false in
           let smax := if Rgt_dec sp sm then sp else sm in
           let av (q : sfield3 V F E) := avg (fun s => a_f mu f s * c2 (a_gf q f s)) in
           smax * (c2 (jump3 M c f) * (avg (a_f mu f) * c2 (jump3 M c f)))
           - av c * c2 (jump3 M c f) - c2 (jump3 M c f) * av c)
       else 0).
Proof.
  intros dg sig sipg mu c pen. unfold mixing_loss. f_equal.
  - apply integral_ext. intros; ring.
  - destruct dg; [|reflexivity]. apply integral_ext. intros f _. cbv zeta. unfold pen, larger.
    unfold avg, jump3, add3, scal3, nrm, opp3. cbn [c0 c1 c2]. replace 0.5 with (1/2) by lra. ring.
Qed.
End Common.

(* ------------------------------------------------------------------ *)
(** * Tracers *)
Section Tracers.
Context {V F E Geo : Type}.
Local Notation tenv3 := (tenv3 V F E).
Variable mesh_of : Geo -> mesh3 V F E.
Variable n_dof : nat.
Variable basis : Geo -> nat -> sfield3 V F E.
Variable solve : ((nat -> R) -> nat -> R) -> (nat -> R) -> nat -> R.
Variable G : (Geo * tenv3) -> (nat -> R) -> (nat -> R) -> nat -> R.
Variable semi : bool.
Variable dt : R.

Notation mass := (tracer3_mass mesh_of n_dof basis).
Notation vector := (tracer3_vector mesh_of n_dof basis).
Notation field g := (tracer3_of n_dof basis g).
Notation state := (tracer_state (V:=V) (F:=F) (E:=E) (Geo:=Geo)).
Notation conc s := (asol (expl s)).
Notation geo s := (ageo (expl s)).

Definition pen3 (K : tenv3) (f : F) : R := larger (k_sipgv K * k_sigv K f true) (k_sipgv K * k_sigv K f false).

(** What mixing with the diffusivity [muv] takes from the tracer [c]. *)
Definition tracer_mixing (g : Geo) (K : tenv3) (muv : option (sfield3 V F E)) (c : sfield3 V F E) : R :=
  match muv with None => 0 | Some mu => mixing_loss (mesh_of g) (k_vdg K) (pen3 K) mu c end.

(** Mixing takes variance from every tracer of the space, the basis functions are
    independent, and the two solvers solve. *)
Definition mixes (g : Geo) (K : tenv3) (muv : option (sfield3 V F E)) : Prop :=
  forall c, 0 <= tracer_mixing g K muv (field g c).
Definition independent3 (g : Geo) : Prop :=
  forall c, variance3 (mesh_of g) (field g c) = 0 -> forall i, (i < n_dof)%nat -> c i = 0.
Definition solvers (g : Geo) (K : tenv3) (muv : option (sfield3 V F E)) : Prop :=
  let e := (g, implicit_env K muv) in
  exact_solver solve /\ (forall u w x, mass g (G e u w) x = vector g (snd e) u x).

Variable g : Geo.
Notation M := (mesh_of g).
Hypothesis Hpos : positive3 M.

Lemma only_mixing : forall K muv phi c,
  tracer_residual3 M (implicit_env K muv) phi c = ver_diff M (implicit_env K muv) phi c.
Proof.
  intros K muv phi c. unfold tracer_residual3, hor_adv, ver_adv, hor_diff, tsource, full_uv, vertvelo.
  cbn [implicit_env k_uv k_dav k_w k_wmesh k_muh k_source]. ring.
Qed.

Lemma mixing_self : forall K muv c, ver_diff M (implicit_env K muv) c c = - tracer_mixing g K muv c.
Proof.
  intros K muv c. unfold ver_diff, tracer_mixing. cbn [implicit_env k_muv]. destruct muv as [mu|]; [|ring].
  cbn [k_vdg k_sipgv k_sigv]. unfold pen3. rewrite (loss_form M (k_vdg K) (k_sigv K) (k_sipgv K) mu c). reflexivity.
Qed.

Lemma vector_linear : forall K muv u a v i,
  vector g (implicit_env K muv) (fun x => u x + a * v x) i
  = vector g (implicit_env K muv) u i + a * vector g (implicit_env K muv) v i.
Proof.
  intros K muv u a v i. unfold tracer3_vector. destruct (Nat.ltb i n_dof); [|ring].
  rewrite !only_mixing. unfold tracer3_of. rewrite comb3_plus.
  rewrite (proj1 (C59_diffusion_symmetric M (implicit_env K muv) _ (add_s _ _))).
  rewrite (proj1 (C59_diffusion_symmetric M (implicit_env K muv) _ (comb3 n_dof u _))).
  rewrite (proj1 (C59_diffusion_symmetric M (implicit_env K muv) _ (comb3 n_dof v _))).
  apply (lin3_ver_diff M (implicit_env K muv)).
Qed.

Lemma mass_linear : forall u a v i, mass g (fun x => u x + a * v x) i = mass g u i + a * mass g v i.
Proof.
  intros u a v i. unfold tracer3_mass. destruct (Nat.ltb i n_dof); [|ring].
  unfold tracer3_of. rewrite comb3_plus. apply integral_lin. intros p _. cbn. ring.
Qed.

Lemma work_mass3 : forall u v, row_sum n_dof v (mass g u) = dx3 M (fun p => a_v (field g u) p * a_v (field g v) p).
Proof.
  intros u v. unfold tracer3_of at 2.
  rewrite <- (work_test (fun phi => dx3 M (fun p => a_v (field g u) p * a_v phi p)) (lin3_mass M _) n_dof v (basis g)).
  unfold row_sum. apply rsum_ext. intros i Hi. unfold tracer3_mass. apply Nat.ltb_lt in Hi. rewrite Hi. reflexivity.
Qed.

Lemma work_vector3 : forall K muv u v,
  row_sum n_dof v (vector g (implicit_env K muv) u) = ver_diff M (implicit_env K muv) (field g v) (field g u).
Proof.
  intros K muv u v. unfold tracer3_of at 1.
  rewrite <- (work_test (fun phi => ver_diff M (implicit_env K muv) phi (field g u)) (lin3_ver_diff M _ _) n_dof v (basis g)).
  unfold row_sum. apply rsum_ext. intros i Hi. unfold tracer3_vector. apply Nat.ltb_lt in Hi. rewrite Hi.
  rewrite only_mixing. reflexivity.
Qed.

Lemma variance_pos : forall c, 0 <= variance3 M c.
Proof.
  intro c. destruct Hpos as (Pc & _). apply integral_nonneg; intros p Hp; [pose proof (Pc p Hp); lra|]. nra.
Qed.

Section OneStep.
Variable K : tenv3.
Variable muv : option (sfield3 V F E).
Hypothesis Hind : independent3 g.
Hypothesis Hmix : mixes g K muv.
Notation lin := (vector g (implicit_env K muv)).

Lemma t_mass_local : forall u v, (forall i, (i < n_dof)%nat -> u i = v i) -> forall i, (i < n_dof)%nat -> mass g u i = mass g v i.
Proof. intros u v H i Hi. unfold tracer3_mass, tracer3_of. apply Nat.ltb_lt in Hi. rewrite Hi, (comb3_ext n_dof u v _ H). reflexivity. Qed.
Lemma t_lin_local : forall u v, (forall i, (i < n_dof)%nat -> u i = v i) -> forall i, lin u i = lin v i.
Proof. intros u v H i. unfold tracer3_vector, tracer3_of. rewrite (comb3_ext n_dof u v _ H). reflexivity. Qed.
Lemma t_mass_out : forall u i, (n_dof <= i)%nat -> mass g u i = u i.
Proof. intros u i Hi. unfold tracer3_mass. destruct (Nat.ltb_spec i n_dof); [lia|reflexivity]. Qed.
Lemma t_lin_out : forall u i, (n_dof <= i)%nat -> lin u i = 0.
Proof. intros u i Hi. unfold tracer3_vector. destruct (Nat.ltb_spec i n_dof); [lia|reflexivity]. Qed.
Lemma t_mass_sym : forall u v, row_sum n_dof v (mass g u) = row_sum n_dof u (mass g v).
Proof. intros u v. rewrite !work_mass3. apply integral_ext. intros; ring. Qed.
Lemma t_mass_def : forall u, row_sum n_dof u (mass g u) <= 0 -> forall i, (i < n_dof)%nat -> u i = 0.
Proof. intros u H. apply Hind. rewrite work_mass3 in H. pose proof (variance_pos (field g u)). unfold variance3 in *. lra. Qed.
Lemma t_takes : forall u, row_sum n_dof u (lin u) <= 0.
Proof. intro u. rewrite work_vector3, mixing_self. pose proof (Hmix u). lra. Qed.

(** The implicit equation can be solved for every time step. *)
Theorem C87_tracer_solvable : 0 <= dt -> solvers g K muv ->
  diffusible mesh_of n_dof basis solve G dt true g K muv.
Proof.
  intros Hdt (Hs & HG) _ e. split; [exact Hs|]. split; [exact HG|]. intros base w.
  apply (stage_onto n_dof (mass g) lin mass_linear (vector_linear K muv) t_mass_local t_lin_local t_mass_out t_lin_out
           t_mass_def t_takes (fun u => G e u w) (fun _ => 0)).
  - lra.
  - reflexivity.
  - intros u i. cbv beta. rewrite Rplus_0_r. apply (HG u w i).
Qed.
End OneStep.

(** one backward Euler step of the assembled equation *)
Definition mixing_step (K : tenv3) (muv : option (sfield3 V F E)) (c c' : nat -> R) : Prop :=
  forall i, (i < n_dof)%nat -> mass g c' i = mass g c i + dt * vector g (implicit_env K muv) c' i.

Lemma advance_is_step : forall muv t (s : state), geo s = g -> independent3 g -> mixes g (aenv (expl s)) muv ->
  0 <= dt -> solvers g (aenv (expl s)) muv ->
  mixing_step (aenv (expl s)) muv (conc s) (conc (implicit_part solve G semi dt true muv t s)).
Proof.
  intros muv t s Hg Hind Hmix Hdt Hs.
  pose proof (C87_tracer_solvable (aenv (expl s)) muv Hind Hmix Hdt Hs) as Hd.
  destruct (Hd eq_refl) as (Hs1 & HG & Hex). cbv zeta in HG, Hex.
  unfold implicit_part. cbn [expl assign asol]. rewrite Hg.
  set (e0 := (g, implicit_env (aenv (expl s)) muv)) in *.
  set (i0 := set_env e0 (set_sol (conc s) (impl s))).
  assert (Hsame : sol (dirk_advance BackwardEulerTab G solve semi dt None t i0)
                = sol (dirk_advance BackwardEulerTab (fun _ => G e0) solve semi dt None t i0)).
  { unfold dirk_advance. unfold i0. cbn [ini set_env set_sol]. destruct (ini (impl s)); reflexivity. }
  rewrite Hsame.
  destruct (C24_tendency_form_step BackwardEulerTab (fun _ : (Geo * tenv3) => G e0) solve semi dt None t i0) as [(k & Hk & Hu) _].
  - cbn. lia.
  - exact Hs1.
  - intros i e base w Hi. assert (i = 0)%nat as -> by (cbn in Hi; lia). apply (Hex base w).
  - specialize (Hk 0%nat ltac:(cbn; lia)). rewrite Hu.
    assert (Eu : along (sol i0) dt (ns BackwardEulerTab) (tb BackwardEulerTab) k = fun x => conc s x + dt * k 0%nat x).
    { apply functional_extensionality. intro x. unfold along, i0. cbn. ring. }
    assert (Es : along (sol i0) dt 1 (ta BackwardEulerTab 0) k = fun x => conc s x + dt * k 0%nat x).
    { apply functional_extensionality. intro x. unfold along, i0. cbn. ring. }
    rewrite Eu. rewrite Es in Hk. intros i Hi. rewrite mass_linear. f_equal. f_equal.
    rewrite Hk at 1. apply HG.
Qed.

(** The variance over one step: what mixing takes, and the square of the change. *)
Theorem C87_tracer_budget : forall muv t (s : state), geo s = g -> independent3 g -> mixes g (aenv (expl s)) muv ->
  0 <= dt -> solvers g (aenv (expl s)) muv ->
  let s' := implicit_part solve G semi dt true muv t s in
  variance3 M (field g (conc s')) + variance_between M (field g (conc s')) (field g (conc s))
  + 2 * dt * tracer_mixing g (aenv (expl s)) muv (field g (conc s'))
  = variance3 M (field g (conc s)).
Proof.
  intros muv t s Hg Hind Hmix Hdt Hs s'.
  pose proof (advance_is_step muv t s Hg Hind Hmix Hdt Hs) as Q. fold s' in Q. unfold mixing_step in Q.
  assert (B := step_energy n_dof (mass g) (vector g (implicit_env (aenv (expl s)) muv)) mass_linear t_mass_sym
           (fun _ => 0) dt (conc s) (conc s')).
  rewrite !work_mass3, work_vector3, mixing_self in B.
  assert (Z : row_sum n_dof (conc s') (fun _ => 0) = 0) by (unfold row_sum; apply rsum_zero; intros; ring).
  rewrite Z in B.
  assert (D : dx3 M (fun p => a_v (field g (fun i => conc s' i + -1 * conc s i)) p * a_v (field g (fun i => conc s' i + -1 * conc s i)) p)
            = variance_between M (field g (conc s')) (field g (conc s))).
  { unfold variance_between, tracer3_of. rewrite comb3_plus. apply integral_ext. intros p _. cbn. ring. }
  rewrite D in B. unfold variance3.
  enough (dx3 M (fun p => a_v (field g (conc s')) p * a_v (field g (conc s')) p) +
    variance_between M (field g (conc s')) (field g (conc s)) =
    dx3 M (fun p => a_v (field g (conc s)) p * a_v (field g (conc s)) p) +
    2 * dt * (- tracer_mixing g (aenv (expl s)) muv (field g (conc s')) + 0)) by lra.
  apply B. intros i Hi. rewrite Q by exact Hi. ring.
Qed.

Theorem C87_tracer_variance : forall muv t (s : state), geo s = g -> independent3 g -> mixes g (aenv (expl s)) muv ->
  0 <= dt -> solvers g (aenv (expl s)) muv ->
  let s' := implicit_part solve G semi dt true muv t s in
  variance3 M (field g (conc s')) <= variance3 M (field g (conc s)).
Proof.
  intros muv t s Hg Hind Hmix Hdt Hs s'.
  pose proof (C87_tracer_budget muv t s Hg Hind Hmix Hdt Hs) as B. cbv zeta in B. fold s' in B.
  assert (0 <= variance_between M (field g (conc s')) (field g (conc s))).
  { destruct Hpos as (Pc & _). apply integral_nonneg; intros p Hp; [pose proof (Pc p Hp); lra|]. apply Rle_0_sqr. }
  pose proof (Hmix (conc s')). assert (0 <= dt * tracer_mixing g (aenv (expl s)) muv (field g (conc s'))) by (apply Rmult_le_pos; assumption).
  lra.
Qed.

(** Two tracers mixed the same way come closer: an error is never amplified. *)
Theorem C87_tracer_contraction : forall muv t t2 (s s2 : state), geo s = g -> geo s2 = g -> aenv (expl s2) = aenv (expl s) ->
  independent3 g -> mixes g (aenv (expl s)) muv -> 0 <= dt -> solvers g (aenv (expl s)) muv ->
  let s' := implicit_part solve G semi dt true muv t s in
  let s2' := implicit_part solve G semi dt true muv t2 s2 in
  variance_between M (field g (conc s')) (field g (conc s2')) <= variance_between M (field g (conc s)) (field g (conc s2)).
Proof.
  intros muv t t2 s s2 Hg Hg2 He Hind Hmix Hdt Hs s' s2'.
  pose proof (advance_is_step muv t s Hg Hind Hmix Hdt Hs) as Q. fold s' in Q. unfold mixing_step in Q.
  assert (Hmix2 := Hmix). assert (Hs2 := Hs). rewrite <- He in Hmix2, Hs2.
  pose proof (advance_is_step muv t2 s2 Hg2 Hind Hmix2 Hdt Hs2) as Q2. fold s2' in Q2. unfold mixing_step in Q2. rewrite He in Q2.
  set (d := fun i => conc s i + -1 * conc s2 i). set (d' := fun i => conc s' i + -1 * conc s2' i).
  assert (B := step_energy n_dof (mass g) (vector g (implicit_env (aenv (expl s)) muv)) mass_linear t_mass_sym
           (fun _ => 0) dt d d').
  rewrite !work_mass3, work_vector3, mixing_self in B.
  assert (Z : row_sum n_dof d' (fun _ => 0) = 0) by (unfold row_sum; apply rsum_zero; intros; ring).
  rewrite Z in B.
  assert (D : forall u v, dx3 M (fun p => a_v (field g (fun i => u i + -1 * v i)) p * a_v (field g (fun i => u i + -1 * v i)) p)
            = variance_between M (field g u) (field g v)).
  { intros u v. unfold variance_between, tracer3_of. rewrite comb3_plus. apply integral_ext. intros p _. cbn. ring. }
  unfold d, d' in B. rewrite !D in B. fold d d' in B.
  assert (X := variance_pos (field g (fun i => d' i + -1 * d i))). unfold variance3 in X. rewrite D in X.
  pose proof (Hmix d') as Y. assert (0 <= dt * tracer_mixing g (aenv (expl s)) muv (field g d')) by (apply Rmult_le_pos; assumption).
  enough (variance_between M (field g (conc s')) (field g (conc s2')) + variance_between M (field g d') (field g d)
     = variance_between M (field g (conc s)) (field g (conc s2)) + 2 * dt * (- tracer_mixing g (aenv (expl s)) muv (field g d') + 0)) by lra.
  apply B. intros i Hi. unfold d, d'. rewrite !mass_linear, vector_linear, Q, Q2 by exact Hi. ring.
Qed.
End Tracers.

Print Assumptions C87_tracer_solvable.
Print Assumptions C87_tracer_budget.
Print Assumptions C87_tracer_variance.
Print Assumptions C87_tracer_contraction.
