(** C90: tracers of the coupled 3D runs superpose on the moving mesh. *)
From Coq Require Import Reals List Bool Arith Lia Lra FunctionalExtensionality.
From Verif Require Import Forms_Model Forms_Proofs RK_Model RK_Spec RK_Proofs RK_Proofs4 P_RungeKutta TimeInt_Model
  P_Galerkin Super_Spec Super_Proofs Forms3d_Model Forms3d_Spec P_Tracer3d Galerkin3d_Model Galerkin3d_Proofs P_Galerkin3d
  Super3d_Spec Super3d_Proofs.
Import ListNotations.
Open Scope R_scope.

Section Runs.
Context {V F E Geo : Type}.
Local Notation tenv3 := (tenv3 V F E).
Variable mesh_of : Geo -> mesh3 V F E.
Variable n_dof : nat.
Variable basis : Geo -> nat -> sfield3 V F E.
Variable msolve : Geo -> (nat -> R) -> nat -> R.
Variable solve : ((nat -> R) -> nat -> R) -> (nat -> R) -> nat -> R.
Variable G : (Geo * tenv3) -> (nat -> R) -> (nat -> R) -> nat -> R.
Variable semi : bool.
Variable dt : R.
Variable uf : option (R -> tenv3 -> tenv3).
Variables a b : R.

Notation mass := (tracer3_mass mesh_of n_dof basis).
Notation vector := (tracer3_vector mesh_of n_dof basis).
Notation state := (tracer_state (V:=V) (F:=F) (E:=E) (Geo:=Geo)).
Notation conc s := (asol (expl s)).
Notation geo s := (ageo (expl s)).
(** use_limiter_for_tracers = False *)
Notation unlimited := (fun (_ : Geo) (c : nat -> R) => c).

(** The assembled equation: the tendency of a combination is the combination of the tendencies. *)
Theorem C90_tracer3d_assembled : forall g K K1 K2 c d, mixed_env3 a b K K1 K2 ->
  vector g K (mix a b c d) = mix a b (vector g K1 c) (vector g K2 d).
Proof.
  intros g K K1 K2 c d HM. apply functional_extensionality. intro i.
  change (mix a b (vector g K1 c) (vector g K2 d) i) with (a * vector g K1 c i + b * vector g K2 d i). unfold tracer3_vector.
  destruct (Nat.ltb i n_dof); [|ring]. unfold tracer3_of. rewrite comb3_mix. apply residual3_mix. exact HM.
Qed.

Lemma mass3_mix : forall g c d, mass g (mix a b c d) = mix a b (mass g c) (mass g d).
Proof.
  intros g c d. apply functional_extensionality. intro i.
  change (mix a b (mass g c) (mass g d) i) with (a * mass g c i + b * mass g d i). unfold tracer3_mass.
  destruct (Nat.ltb i n_dof); [|reflexivity]. unfold tracer3_of. rewrite comb3_mix. apply integral_mix.
  intros p _. unfold mix_s3. cbn [add_s scale3 a_v]. ring.
Qed.

(** The linear solver inverts the mass matrix, which is regular. *)
Hypothesis Hsolve : forall g m, mass g (msolve g m) = m.
Hypothesis Hregular : forall g c d, mass g c = mass g d -> c = d.

Lemma msolve_mix : forall g m m1 m2, m = mix a b m1 m2 -> msolve g m = mix a b (msolve g m1) (msolve g m2).
Proof. intros g m m1 m2 ->. apply (Hregular g). rewrite mass3_mix, !Hsolve. reflexivity. Qed.

(** The implicit diffusion problem on the mesh [g] has at most one solution. *)
Definition once (g : Geo) (K : tenv3) (muv : option (sfield3 V F E)) : Prop :=
  forall base k k', mass g k = vector g (implicit_env K muv) (fun x => base x + dt * 1 * k x) ->
    mass g k' = vector g (implicit_env K muv) (fun x => base x + dt * 1 * k' x) -> k = k'.
Notation diffusible := (diffusible mesh_of n_dof basis solve G dt).

Lemma implicit_env_mix : forall (K K1 K2 : tenv3) (muv : option (sfield3 V F E)), mixed_env3 a b K K1 K2 ->
  mixed_env3 a b (implicit_env K muv) (implicit_env K1 muv) (implicit_env K2 muv).
Proof.
  intros K K1 K2 muv ((E1 & E2 & E3 & E4 & E5 & E6 & E7 & E8 & E9 & E10 & E11 & E12 & E13 & E14 & E15)
   & (G1 & G2 & G3 & G4 & G5 & G6 & G7 & G8 & G9 & G10 & G11 & G12 & G13 & G14 & G15) & HB & HS).
  unfold mixed_env3, same_water3. cbn. repeat split; try assumption. intros _. ring.
Qed.

(** one backward Euler step of the implicit equation *)
Lemma implicit_value : forall muv t (s : state), diffusible true (geo s) (aenv (expl s)) muv ->
  exists k, mass (geo s) k = vector (geo s) (implicit_env (aenv (expl s)) muv) (fun x => conc s x + dt * 1 * k x) /\
    conc (implicit_part solve G semi dt true muv t s) = (fun x => conc s x + dt * 1 * k x).
Proof.
  intros muv t s Hd. destruct (Hd eq_refl) as (Hs & HG & Hex). cbv zeta in HG, Hex. unfold implicit_part. cbv zeta.
  cbn [expl assign asol].
  set (e0 := (geo s, implicit_env (aenv (expl s)) muv)) in *.
  set (i0 := set_env e0 (set_sol (conc s) (impl s))).
  assert (Hsame : sol (dirk_advance BackwardEulerTab G solve semi dt None t i0)
                = sol (dirk_advance BackwardEulerTab (fun _ => G e0) solve semi dt None t i0)).
  { unfold dirk_advance. unfold i0. cbn [ini set_env set_sol]. destruct (ini (impl s)); reflexivity. }
  rewrite Hsame.
  destruct (C24_tendency_form_step BackwardEulerTab (fun _ : (Geo * tenv3) => G e0) solve semi dt None t i0) as [(k & Hk & Hu) _].
  - cbn. lia.
  - exact Hs.
  - intros i e base w Hi. assert (i = 0)%nat as -> by (cbn in Hi; lia). apply (Hex base w).
  - assert (Q : sol (dirk_advance BackwardEulerTab (fun _ => G e0) solve semi dt None t i0) = (fun x => conc s x + dt * 1 * k 0%nat x)).
    { rewrite Hu, along_rsum. apply functional_extensionality. intro x. unfold i0. cbn [sol set_env set_sol].
      cbn [BackwardEulerTab tab ns length rsum]. cbn. ring. }
    exists (k 0%nat). split; [|exact Q].
    pose proof (Hk 0%nat ltac:(cbn; lia)) as H0.
    match type of H0 with _ = G _ ?u ?w => assert (QU : u = fun x => conc s x + dt * 1 * k 0%nat x) end.
    { rewrite along_rsum. apply functional_extensionality. intro x. unfold i0. cbn [sol set_env set_sol].
      cbn [BackwardEulerTab tab ns length rsum]. cbn. ring. }
    rewrite QU in H0. rewrite H0 at 1. apply functional_extensionality. intro x. rewrite HG. reflexivity.
Qed.

Lemma implicit_part_mix : forall implicit muv t (s s1 s2 : state),
  geo s1 = geo s -> geo s2 = geo s -> conc s = mix a b (conc s1) (conc s2) ->
  mixed_env3 a b (aenv (expl s)) (aenv (expl s1)) (aenv (expl s2)) ->
  diffusible implicit (geo s) (aenv (expl s)) muv -> diffusible implicit (geo s) (aenv (expl s1)) muv ->
  diffusible implicit (geo s) (aenv (expl s2)) muv -> (implicit = true -> once (geo s) (aenv (expl s)) muv) ->
  let part := implicit_part solve G semi dt implicit muv t in
  conc (part s) = mix a b (conc (part s1)) (conc (part s2)).
Proof.
  intros implicit muv t s s1 s2 Hg1 Hg2 Hc HK D0 D1 D2 HO part. unfold part. destruct implicit; [|exact Hc].
  rewrite <- Hg1 in D1. rewrite <- Hg2 in D2.
  destruct (implicit_value muv t s D0) as (k & Hk & ->).
  destruct (implicit_value muv t s1 D1) as (k1 & Hk1 & ->).
  destruct (implicit_value muv t s2 D2) as (k2 & Hk2 & ->).
  assert (Q : k = mix a b k1 k2).
  { apply (HO eq_refl (conc s)); [exact Hk|]. rewrite mass3_mix, <- Hg1, Hk1, Hg1, <- Hg2, Hk2, Hg2.
    rewrite <- (C90_tracer3d_assembled (geo s) _ _ _ _ _ (implicit_env_mix _ _ _ muv HK)). f_equal.
    apply functional_extensionality. intro x. rewrite Hc. unfold mix. ring. }
  apply functional_extensionality. intro x. rewrite Q, Hc. unfold mix. ring.
Qed.

Lemma implicit_part_frame : forall implicit muv t (s : state),
  let s' := implicit_part solve G semi dt implicit muv t s in
  geo s' = geo s /\ aold (expl s') = aold (expl s).
Proof. intros [] muv t s; split; reflexivity. Qed.

(* ------------------------------------------------------------------ *)
(** * Whole runs *)
Notation given := (given (V:=V) (F:=F) (E:=E) (Geo:=Geo)).

(** Three tracers in one run: the same mesh and diffusivity, the data combined. *)
Definition mixed_step (d d1 d2 : given) : Prop :=
  geo_stage d1 = geo_stage d /\ geo_stage d2 = geo_stage d /\ geo_new d1 = geo_new d /\ geo_new d2 = geo_new d /\
  diffusivity d1 = diffusivity d /\ diffusivity d2 = diffusivity d /\ at_t d1 = at_t d /\ at_t d2 = at_t d.

Fixpoint mixed_rk (implicit : bool) (l l1 l2 : list given) : Prop :=
  match l, l1, l2 with
  | [], [], [] => True
  | d :: r, d1 :: r1, d2 :: r2 =>
      let first d := force uf (at_t d + 0 * dt) (K_first d) in
      let second d := force uf (at_t d + 1 * dt) (K_second d) in
      mixed_step d d1 d2 /\
      mixed_env3 a b (first d) (first d1) (first d2) /\ mixed_env3 a b (second d) (second d1) (second d2) /\
      diffusible implicit (geo_new d) (second d) (diffusivity d) /\
      diffusible implicit (geo_new d) (second d1) (diffusivity d) /\
      diffusible implicit (geo_new d) (second d2) (diffusivity d) /\
      (implicit = true -> once (geo_new d) (second d) (diffusivity d)) /\
      mixed_rk implicit r r1 r2
  | _, _, _ => False
  end.
Fixpoint mixed_lf (implicit : bool) (l l1 l2 : list given) : Prop :=
  match l, l1, l2 with
  | [], [], [] => True
  | d :: r, d1 :: r1, d2 :: r2 =>
      mixed_step d d1 d2 /\
      mixed_env3 a b (K_first d) (K_first d1) (K_first d2) /\ mixed_env3 a b (K_second d) (K_second d1) (K_second d2) /\
      diffusible implicit (geo_new d) (K_second d) (diffusivity d) /\
      diffusible implicit (geo_new d) (K_second d1) (diffusivity d) /\
      diffusible implicit (geo_new d) (K_second d2) (diffusivity d) /\
      (implicit = true -> once (geo_new d) (K_second d) (diffusivity d)) /\
      mixed_lf implicit r r1 r2
  | _, _, _ => False
  end.

Ltac at_x := apply functional_extensionality; intro; unfold mix.

(** The two-stage Runge-Kutta integrator. *)
Theorem C90_rk3d_run : forall implicit l l1 l2 (s s1 s2 : state), mixed_rk implicit l l1 l2 ->
  geo s1 = geo s -> geo s2 = geo s -> conc s = mix a b (conc s1) (conc s2) ->
  let run := rk_run mesh_of n_dof basis msolve unlimited solve G semi dt uf implicit in
  conc (run l s) = mix a b (conc (run l1 s1)) (conc (run l2 s2)).
Proof.
  intros implicit l l1 l2 s s1 s2 H. revert l1 l2 s s1 s2 H.
  induction l as [|d r IH]; intros [|d1 r1] [|d2 r2] s s1 s2 H Hg1 Hg2 Hc run; cbn [mixed_rk] in H; try contradiction; [exact Hc|].
  destruct H as ((S1 & S2 & N1 & N2 & M1 & M2 & T1 & T2) & HK0 & HK1 & D0 & D1 & D2 & HO & Hr). unfold run, rk_run. cbn [fold_left].
  pose proof (fun s => proj1 (implicit_part_frame implicit (diffusivity d) (at_t d) s)) as Fr. cbv zeta in Fr.
  apply IH; [exact Hr| | |]; clear IH Hr run; unfold rk_tracer_step.
  - rewrite M1, T1, !Fr. cbn [expl]. exact N1.
  - rewrite M2, T2, !Fr. cbn [expl]. exact N2.
  - rewrite M1, M2.
    set (K0 := force uf (at_t d + 0 * dt) (K_first d)) in *. set (K01 := force uf (at_t d1 + 0 * dt) (K_first d1)) in *.
    set (K02 := force uf (at_t d2 + 0 * dt) (K_first d2)) in *. set (K1 := force uf (at_t d + 1 * dt) (K_second d)) in *.
    set (K11 := force uf (at_t d1 + 1 * dt) (K_second d1)) in *. set (K12 := force uf (at_t d2 + 1 * dt) (K_second d2)) in *.
    set (one := fun (K : tenv3) g1 (c : nat -> R) (g : Geo) => msolve g1 (fun x => mass g c x + dt * vector g K c x)).
    set (two := fun (K K' : tenv3) g1 g2 (c : nat -> R) (g : Geo) => msolve g2 (fun x =>
       1/2 * (mass g c x + dt * vector g K c x) + 1/2 * mass g c x + 1/2 * (dt * vector g1 K' (one K g1 c g) x))).
    assert (O : one K0 (geo_stage d) (conc s) (geo s) = mix a b (one K01 (geo_stage d) (conc s1) (geo s)) (one K02 (geo_stage d) (conc s2) (geo s))).
    { unfold one. apply msolve_mix. rewrite Hc, mass3_mix, (C90_tracer3d_assembled _ _ _ _ _ _ HK0). at_x. ring. }
    assert (W : two K0 K1 (geo_stage d) (geo_new d) (conc s) (geo s)
              = mix a b (two K01 K11 (geo_stage d) (geo_new d) (conc s1) (geo s)) (two K02 K12 (geo_stage d) (geo_new d) (conc s2) (geo s))).
    { unfold two. apply msolve_mix. rewrite O, Hc, mass3_mix, (C90_tracer3d_assembled _ _ _ _ _ _ HK0), (C90_tracer3d_assembled _ _ _ _ _ _ HK1). at_x. ring. }
    pose proof (implicit_part_mix implicit (diffusivity d) (at_t d)) as IP. cbv zeta in IP.
    match goal with |- conc (implicit_part _ _ _ _ _ _ _ ?x) = mix a b (conc (implicit_part _ _ _ _ _ _ _ ?y)) (conc (implicit_part _ _ _ _ _ _ _ ?z)) =>
      set (x0 := x); set (y0 := y); set (z0 := z) end.
    rewrite T1, T2. apply IP.
    + exact N1.
    + exact N2.
    + transitivity (two K0 K1 (geo_stage d) (geo_new d) (conc s) (geo s)); [reflexivity|]. rewrite W. f_equal.
      * rewrite <- Hg1, <- S1, <- N1. reflexivity.
      * rewrite <- Hg2, <- S2, <- N2. reflexivity.
    + exact HK1.
    + exact D0.
    + exact D1.
    + exact D2.
    + exact HO.
Qed.

(** The leap-frog Adams-Moulton integrator; it also keeps the tracer of the previous step. *)
Theorem C90_lf3d_run : forall implicit l l1 l2 (s s1 s2 : state), mixed_lf implicit l l1 l2 ->
  geo s1 = geo s -> geo s2 = geo s -> conc s = mix a b (conc s1) (conc s2) ->
  aold (expl s) = mix a b (aold (expl s1)) (aold (expl s2)) ->
  let run := lf_run mesh_of n_dof basis msolve unlimited solve G semi dt implicit in
  conc (run l s) = mix a b (conc (run l1 s1)) (conc (run l2 s2)).
Proof.
  intros implicit l l1 l2 s s1 s2 H. revert l1 l2 s s1 s2 H.
  induction l as [|d r IH]; intros [|d1 r1] [|d2 r2] s s1 s2 H Hg1 Hg2 Hc Ho run; cbn [mixed_lf] in H; try contradiction; [exact Hc|].
  destruct H as ((S1 & S2 & N1 & N2 & M1 & M2 & T1 & T2) & HK0 & HK1 & D0 & D1 & D2 & HO & Hr). unfold run, lf_run. cbn [fold_left].
  pose proof (fun s => proj1 (implicit_part_frame implicit (diffusivity d) (at_t d) s)) as Fr. cbv zeta in Fr.
  pose proof (fun s => proj2 (implicit_part_frame implicit (diffusivity d) (at_t d) s)) as Fo. cbv zeta in Fo.
  apply IH; [exact Hr| | | |]; clear IH Hr run; unfold lf_tracer_step; cbv zeta.
  - rewrite M1, T1, !Fr. cbn [expl]. exact N1.
  - rewrite M2, T2, !Fr. cbn [expl]. exact N2.
  - rewrite M1, M2.
    set (half := fun (K : tenv3) (c o : nat -> R) (g : Geo) => msolve g (fun x =>
       (1/2 - 2 * lf_gamma) * mass g o x + (1/2 + 2 * lf_gamma) * mass g c x + (1 - 2 * lf_gamma) * (dt * vector g K c x))).
    set (new := fun (K K' : tenv3) g1 (c o : nat -> R) (g : Geo) => msolve g1 (fun x => dt * vector g K' (half K c o g) x + mass g c x)).
    assert (O : half (K_first d) (conc s) (aold (expl s)) (geo s)
              = mix a b (half (K_first d1) (conc s1) (aold (expl s1)) (geo s)) (half (K_first d2) (conc s2) (aold (expl s2)) (geo s))).
    { unfold half. apply msolve_mix. rewrite Hc, Ho, !mass3_mix, (C90_tracer3d_assembled _ _ _ _ _ _ HK0). at_x. ring. }
    assert (W : new (K_first d) (K_second d) (geo_new d) (conc s) (aold (expl s)) (geo s)
              = mix a b (new (K_first d1) (K_second d1) (geo_new d) (conc s1) (aold (expl s1)) (geo s))
                        (new (K_first d2) (K_second d2) (geo_new d) (conc s2) (aold (expl s2)) (geo s))).
    { unfold new. apply msolve_mix. rewrite O, Hc, mass3_mix, (C90_tracer3d_assembled _ _ _ _ _ _ HK1). at_x. ring. }
    pose proof (implicit_part_mix implicit (diffusivity d) (at_t d)) as IP. cbv zeta in IP.
    match goal with |- conc (implicit_part _ _ _ _ _ _ _ ?x) = mix a b (conc (implicit_part _ _ _ _ _ _ _ ?y)) (conc (implicit_part _ _ _ _ _ _ _ ?z)) =>
      set (x0 := x); set (y0 := y); set (z0 := z) end.
    rewrite T1, T2. apply IP.
    + exact N1.
    + exact N2.
    + transitivity (new (K_first d) (K_second d) (geo_new d) (conc s) (aold (expl s)) (geo s)); [reflexivity|]. rewrite W. f_equal.
      * rewrite <- Hg1, <- N1. reflexivity.
      * rewrite <- Hg2, <- N2. reflexivity.
    + exact HK1.
    + exact D0.
    + exact D1.
    + exact D2.
    + exact HO.
  - rewrite M1, M2, T1, T2, !Fo. cbn [expl]. exact Hc.
Qed.
End Runs.

(* ------------------------------------------------------------------ *)
(** * Example: a rising column with an open side and two sources *)
Section Example_.
Let mesh1 (e : nat) : mesh3 unit unit nat :=
  mk_mesh3 [tt] (fun _ => 2 * (INR e + 10)) [] [] (fun _ => 0) (fun _ => zero3)
    [0%nat] [1%nat] [2%nat]
    (fun n => match n with 2%nat => 5 | _ => 2 end)
    (fun n => match n with 0%nat => V3 0 0 1 | 1%nat => V3 0 0 (-1) | _ => V3 1 0 0 end) (fun n => n).
Let basis1 (_ : nat) (_ : nat) : sfield3 unit unit nat := const3 1.
Let msolve1 (e : nat) (m : nat -> R) (i : nat) : R := if Nat.ltb i 1 then m i / (2 * (INR e + 10)) else m i.
(** inflow at half a metre per second carrying [v], and a source of strength [q] *)
Let env1 (v q : R) : tenv3 unit unit nat :=
  mk_tenv3 true true true (Some 1) (Some (mk_vf3 (const3 (-1/2)) (const3 0) (const3 0))) None
    (Some (const3 1)) (Some (const3 1)) None None
    (fun _ _ => 1) (fun _ _ => 1) 1 1 (Some (fun _ => q))
    (fun m => if Nat.eqb m 2 then Some (mk_tb3 (Some (fun _ => v)) XSym) else None) 0.
Let G1 (_ : nat * tenv3 unit unit nat) (_ _ : nat -> R) (_ : nat) : R := 0.
Let steps1 (v q : R) : list (given (V:=unit) (F:=unit) (E:=nat) (Geo:=nat)) :=
  [mk_given (env1 v q) (env1 v q) 1%nat 1%nat (Some (const3 3)) 0;
   mk_given (env1 v q) (env1 v q) 3%nat 2%nat (Some (const3 3)) 1].

Lemma mass1_value : forall g c i, tracer3_mass mesh1 1 basis1 g c i = if Nat.ltb i 1 then 2 * (INR g + 10) * c 0%nat else c i.
Proof.
  intros g c i. unfold tracer3_mass. destruct (Nat.ltb i 1) eqn:Ei; [|reflexivity].
  unfold dx3, integral. cbn. ring.
Qed.
Lemma msolve1_ok : forall g m, tracer3_mass mesh1 1 basis1 g (msolve1 g m) = m.
Proof.
  intros g m. assert (Hg : INR g + 10 <> 0) by (pose proof (pos_INR g); lra).
  apply functional_extensionality. intro i. rewrite mass1_value. unfold msolve1.
  destruct (Nat.ltb i 1) eqn:Ei; [|reflexivity].
  apply Nat.ltb_lt in Ei. assert (i = 0)%nat as -> by lia. cbn. field. exact Hg.
Qed.
Lemma mass1_regular : forall g c d, tracer3_mass mesh1 1 basis1 g c = tracer3_mass mesh1 1 basis1 g d -> c = d.
Proof.
  intros g c d H. assert (Hg : 0 < INR g + 10) by (pose proof (pos_INR g); lra).
  apply functional_extensionality. intro i. pose proof (f_equal (fun f => f i) H) as Hi. cbv beta in Hi.
  rewrite !mass1_value in Hi. destruct (Nat.ltb i 1) eqn:Ei; [|exact Hi].
  apply Nat.ltb_lt in Ei. assert (i = 0)%nat as -> by lia. apply (Rmult_eq_reg_l (2 * (INR g + 10))); lra.
Qed.
Lemma still1 : forall g v q muv u x, tracer3_vector mesh1 1 basis1 g (implicit_env (env1 v q) muv) u x = 0.
Proof.
  intros. unfold tracer3_vector. destruct (Nat.ltb x 1); [|reflexivity].
  unfold tracer_residual3, hor_adv, ver_adv, hor_diff, ver_diff, tsource, dx3, dS_h, integral. destruct muv; cbn; ring.
Qed.
Lemma diffusible2 : forall solve g v q muv, exact_solver solve ->
  diffusible mesh1 1 basis1 solve G1 1 true g (env1 v q) muv.
Proof.
  intros solve g v q muv Hs _ e. split; [exact Hs|]. split.
  - intros u w x. unfold e. cbn [snd]. rewrite still1, mass1_value. unfold G1. destruct (Nat.ltb x 1); ring.
  - intros base w. exists (fun _ => 0). reflexivity.
Qed.
Lemma once1 : forall g v q muv, once mesh1 1 basis1 1 g (env1 v q) muv.
Proof.
  intros g v q muv base k k' H H'. apply (mass1_regular g). rewrite H, H'. apply functional_extensionality. intro x.
  rewrite !still1. reflexivity.
Qed.

(** Twice the first tracer and three times the second. *)
Lemma mixed1 : forall v1 q1 v2 q2, mixed_env3 2 3 (env1 (2*v1+3*v2) (2*q1+3*q2)) (env1 v1 q1) (env1 v2 q2).
Proof.
  intros. split; [repeat split|]. split; [repeat split|]. split.
  - intro m. cbn. destruct (Nat.eqb m 2); cbn; auto.
  - intro p. reflexivity.
Qed.
Example C90_rk3d_example : forall solve (s s1 s2 : tracer_state), exact_solver solve ->
  ageo (expl s) = 0%nat -> ageo (expl s1) = 0%nat -> ageo (expl s2) = 0%nat ->
  asol (expl s) = mix 2 3 (asol (expl s1)) (asol (expl s2)) ->
  let run := rk_run mesh1 1 basis1 msolve1 (fun _ c => c) solve G1 true 1 None true in
  asol (expl (run (steps1 (2*35+3*10) (2*0+3*1)) s))
  = mix 2 3 (asol (expl (run (steps1 35 0) s1))) (asol (expl (run (steps1 10 1) s2))).
Proof.
  intros solve s s1 s2 Hs G0 Ga Gb Hc.
  apply (C90_rk3d_run mesh1 1 basis1 msolve1 solve G1 true 1 None 2 3 msolve1_ok mass1_regular true).
  - cbn [mixed_rk steps1 at_t K_first K_second geo_stage geo_new diffusivity force].
    repeat match goal with
    | |- True => exact I
    | |- mixed_step _ _ _ => repeat split
    | |- mixed_env3 _ _ _ _ _ => apply mixed1
    | |- diffusible _ _ _ _ _ _ _ _ _ _ => apply diffusible2; exact Hs
    | |- true = true -> _ => intros _; apply once1
    | |- _ /\ _ => split
    end.
  - rewrite Ga, G0. reflexivity.
  - rewrite Gb, G0. reflexivity.
  - exact Hc.
Qed.
Example C90_lf3d_example : forall solve (s s1 s2 : tracer_state), exact_solver solve ->
  ageo (expl s) = 0%nat -> ageo (expl s1) = 0%nat -> ageo (expl s2) = 0%nat ->
  asol (expl s) = mix 2 3 (asol (expl s1)) (asol (expl s2)) ->
  aold (expl s) = mix 2 3 (aold (expl s1)) (aold (expl s2)) ->
  let run := lf_run mesh1 1 basis1 msolve1 (fun _ c => c) solve G1 true 1 true in
  asol (expl (run (steps1 (2*35+3*10) (2*0+3*1)) s))
  = mix 2 3 (asol (expl (run (steps1 35 0) s1))) (asol (expl (run (steps1 10 1) s2))).
Proof.
  intros solve s s1 s2 Hs G0 Ga Gb Hc Ho.
  apply (C90_lf3d_run mesh1 1 basis1 msolve1 solve G1 true 1 2 3 msolve1_ok mass1_regular true).
  - cbn [mixed_lf steps1 at_t K_first K_second geo_stage geo_new diffusivity].
    repeat match goal with
    | |- True => exact I
    | |- mixed_step _ _ _ => repeat split
    | |- mixed_env3 _ _ _ _ _ => apply mixed1
    | |- diffusible _ _ _ _ _ _ _ _ _ _ => apply diffusible2; exact Hs
    | |- true = true -> _ => intros _; apply once1
    | |- _ /\ _ => split
    end.
  - rewrite Ga, G0. reflexivity.
  - rewrite Gb, G0. reflexivity.
  - exact Hc.
  - exact Ho.
Qed.
(** The example's tendency is not zero: 5 m2 of inflow at half a metre per second, and the source. *)
Example C90_tracer3d_example : forall v q, tracer3_vector mesh1 1 basis1 0%nat (env1 v q) (fun _ => 0) 0%nat = 20 * q + 5/2 * v.
Proof.
  intros v q. unfold tracer3_vector. cbn [Nat.ltb Nat.leb].
  unfold tracer_residual3, hor_adv, ver_adv, hor_diff, ver_diff, tsource, dx3, dS_h, dS_v, ds_surf, ds_lat, integral, adv_lat, upw, sgn.
  cbn -[Rplus Rmult Rminus Rdiv Ropp Rinv IZR Rlt_dec]. unfold doth, scal3, add3. cbn -[Rplus Rmult Rminus Rdiv Ropp Rinv IZR Rlt_dec].
  destruct (Rlt_dec _ _); [exfalso; lra|]. destruct (Rlt_dec _ _); [lra|exfalso; lra].
Qed.
End Example_.

Print Assumptions C90_tracer3d_assembled.
Print Assumptions C90_rk3d_run.
Print Assumptions C90_lf3d_run.
