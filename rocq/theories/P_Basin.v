(** C95: basins which no facet connects do not influence each other. *)
From Coq Require Import Reals List String Bool Arith Lia Lra FunctionalExtensionality.
From Verif Require Import Forms_Model Forms_Spec Forms_Proofs
  RK_Model RK_Spec RK_Proofs TimeInt_Model TimeInt_Spec TimeInt_Proofs P_RungeKutta P_TimeInt
  Galerkin_Model Galerkin_Proofs P_Galerkin WaveEnergy_Proofs Frame_Proofs P_Sym P_Datum Basin_Spec Basin_Proofs TimeInt_Model.
Import ListNotations.
Open Scope R_scope.

(** ** The equations *)
(** Tested with functions of the basin, the equations of the whole domain are those of the
    basin alone: nothing outside of it enters. *)
Theorem C95_swe : forall {V F B} (P : basin V F B) (E : swe_env V F B) psi phi uv eta uv_old eta_old dh dh1,
  (forall p, in_v P p = true -> dh1 p = dh p) ->
  momentum_residual (env_of P E) (cut_v P psi) (cut_v P uv) (cut_s P eta) (cut_v P uv_old) (cut_s P eta_old)
  = momentum_residual E (cut_v P psi) uv eta uv_old eta_old /\
  continuity_residual (env_of P E) (cut_s P phi) (cut_v P uv) (cut_s P eta) (cut_v P uv_old) (cut_s P eta_old) dh1
  = continuity_residual E (cut_s P phi) uv eta uv_old eta_old dh.
Proof.
  intros V F B P E psi phi uv eta uv_old eta_old dh dh1 Hd. split; [apply part_momentum|apply part_continuity, Hd].
Qed.

Theorem C95_tracer : forall {V F B} (P : basin V F B) (E : swe_env V F B) T phi q uv elev gext,
  let E1 := env_of P E in
  tracer_advection E1 T (cut_s P phi) (cut_s P q) (cut_v P uv) (cut_s P elev) = tracer_advection E T (cut_s P phi) q uv elev /\
  cons_advection E1 T (cut_s P phi) (cut_s P q) (cut_v P uv) (cut_s P elev) = cons_advection E T (cut_s P phi) q uv elev /\
  tracer_diffusion E1 T (cut_s P phi) (cut_s P q) (cut_v P uv) (cut_s P elev) gext = tracer_diffusion E T (cut_s P phi) q uv elev gext /\
  tracer_source E1 T (cut_s P phi) = tracer_source E T (cut_s P phi) /\
  cons_source E1 T (cut_s P phi) (cut_s P elev) = cons_source E T (cut_s P phi) elev.
Proof.
  intros V F B P E T phi q uv elev gext E1. split; [apply part_tadv|]. split; [apply part_cons|]. split; [apply part_tdiff|].
  apply part_tsource.
Qed.

(** ** Runs *)
Section C95.
Context {V F B : Type}.
Variable P : basin V F B.
Variable W : @space V F B.
Variables ne nu : nat.
Hypothesis Hsep : separated P W ne nu.
Variable M : mesh V F B.
Notation W1 := (space_of W ne nu).
Notation M1 := (mesh_of P M).
Variables dh dh1 : (dof -> R) -> (dof -> R) -> V -> R.
(** div(H u), used by continuous velocities only, is that of the water of the basin *)
Hypothesis Hdh : forall u u1 v v1, part_of P W W1 u u1 -> part_of P W W1 v v1 ->
  forall p, in_v P p = true -> dh1 u1 v1 p = dh u v p.

(** the coefficients of the functions of the basin *)
Definition basin_dof (rest u : dof -> R) (x : dof) : R :=
  match x with
  | UV j => if Nat.ltb j nu then u x else rest x
  | ETA i => if Nat.ltb i ne then u x else rest x
  end.
Lemma basin_part : forall rest u, part_of P W W1 u (basin_dof rest u).
Proof.
  intros rest u. destruct Hsep as (Ne & Nu & S1 & S0 & T1 & T0). split.
  - unfold uv_of, cut_v. cbn [space_of n_uv psi v_x v_y]. replace (n_uv W) with (nu + (n_uv W - nu))%nat by lia. f_equal; rewrite cut_comb.
    all: try (apply comb_ext; intros j Hj; cbn [basin_dof]; rewrite (proj2 (Nat.ltb_lt _ _) Hj); reflexivity).
    + intros j Hj. exact (f_equal v_x (T1 j Hj)).
    + intros j Hj. exact (f_equal v_x (T0 j ltac:(lia))).
    + intros j Hj. exact (f_equal v_y (T1 j Hj)).
    + intros j Hj. exact (f_equal v_y (T0 j ltac:(lia))).
  - unfold eta_of. cbn [space_of n_eta phi]. replace (n_eta W) with (ne + (n_eta W - ne))%nat by lia. rewrite cut_comb.
    + apply comb_ext; intros j Hj; cbn [basin_dof]; rewrite (proj2 (Nat.ltb_lt _ _) Hj); reflexivity.
    + exact S1.
    + intros j Hj. exact (S0 j ltac:(lia)).
Qed.

(** *** Assembled systems *)
Definition of_basin (x : dof) : Prop := match x with UV j => (j < nu)%nat | ETA i => (i < ne)%nat end.
Theorem C95_assembled : forall E u u1 v v1 x, part_of P W W1 u u1 -> part_of P W W1 v v1 -> of_basin x ->
  swe_vector W1 (env_of P E) dh1 u1 v1 x = swe_vector W E dh u v x.
Proof.
  intros E u u1 v v1 x Hu Hv Hx. pose proof (Hdh _ _ _ _ Hu Hv) as HD. destruct Hu as (U1 & U2), Hv as (V1 & V2).
  destruct Hsep as (Ne & Nu & S1 & S0 & T1 & T0).
  unfold swe_vector. rewrite U1, U2, V1, V2. cbn [space_of n_uv n_eta phi psi]. destruct x as [j|i]; cbn [of_basin] in Hx.
  - rewrite (proj2 (Nat.ltb_lt j nu)), (proj2 (Nat.ltb_lt j (n_uv W))) by lia. rewrite <- (T1 j Hx), part_momentum. reflexivity.
  - rewrite (proj2 (Nat.ltb_lt i ne)), (proj2 (Nat.ltb_lt i (n_eta W))) by lia. rewrite <- (S1 i Hx). apply part_continuity, HD.
Qed.
Lemma basin_mass : forall disp u u1 x, part_of P W W1 u u1 -> of_basin x ->
  swe_mass W1 M1 disp u1 x = swe_mass W M disp u x.
Proof.
  intros disp u u1 x (U1 & U2) Hx. destruct Hsep as (Ne & Nu & S1 & S0 & T1 & T0).
  unfold swe_mass. rewrite U1, U2. cbn [space_of n_uv n_eta phi psi]. destruct x as [j|i]; cbn [of_basin] in Hx.
  - rewrite (proj2 (Nat.ltb_lt j nu)), (proj2 (Nat.ltb_lt j (n_uv W))) by lia. rewrite <- (T1 j Hx). apply integral_part.
    + intros p Hp. unfold vv. cbn [cut_v cut_s v_x v_y s_v]. rewrite Hp. reflexivity.
    + intros p Hp. unfold vv, dot2. cbn [cut_v cut_s v_x v_y s_v fst snd]. rewrite Hp. ring.
  - rewrite (proj2 (Nat.ltb_lt i ne)), (proj2 (Nat.ltb_lt i (n_eta W))) by lia. rewrite <- (S1 i Hx). apply f_equal2; apply integral_part.
    all: intros p Hp; cbn [cut_s s_v]; rewrite Hp; try reflexivity; ring.
Qed.
Lemma other_dec : forall x, of_basin x \/ ~ of_basin x.
Proof. intros [j|i]; cbn [of_basin]; [destruct (Nat.lt_ge_cases j nu)|destruct (Nat.lt_ge_cases i ne)]; [left|right|left|right]; lia. Qed.
Lemma other_vector : forall (E : swe_env V F B) d u v x, ~ of_basin x -> swe_vector W1 E d u v x = 0.
Proof.
  intros E d u v [j|i] Hx; cbn [of_basin swe_vector space_of n_uv n_eta] in *.
  - destruct (Nat.ltb j nu) eqn:L; [|reflexivity]. apply Nat.ltb_lt in L. contradiction.
  - destruct (Nat.ltb i ne) eqn:L; [|reflexivity]. apply Nat.ltb_lt in L. contradiction.
Qed.
Lemma other_mass : forall d u x, ~ of_basin x -> swe_mass W1 M1 d u x = u x.
Proof.
  intros d u [j|i] Hx; cbn [of_basin swe_mass space_of n_uv n_eta] in *.
  - destruct (Nat.ltb j nu) eqn:L; [|reflexivity]. apply Nat.ltb_lt in L. contradiction.
  - destruct (Nat.ltb i ne) eqn:L; [|reflexivity]. apply Nat.ltb_lt in L. contradiction.
Qed.
Lemma other_dof : forall rest u x, ~ of_basin x -> basin_dof rest u x = rest x.
Proof.
  intros rest u [j|i] Hx; cbn [of_basin basin_dof] in *.
  - destruct (Nat.ltb j nu) eqn:L; [|reflexivity]. apply Nat.ltb_lt in L. contradiction.
  - destruct (Nat.ltb i ne) eqn:L; [|reflexivity]. apply Nat.ltb_lt in L. contradiction.
Qed.

(** *** Implicit steps *)
Section Theta.
Context {Val Bd : Type}.
Variable Env : (string -> option Val) -> (string -> option Val) -> Bd -> swe_env V F B.
Variable disp : V -> R -> R.
Variable keys : list string.
Variable kind : string -> ckind.
Variable solve : ((dof -> R) -> dof -> R) -> (dof -> R) -> dof -> R.
Variable dt : R.
Variable uf : option (@forcing Val Bd).
Variable theta : R.
Variable semi : bool.
Notation Env1 := (fun f fo b => env_of P (Env f fo b)).
Notation step := (cn_advance keys kind (Res W dh Env) (swe_mass W M disp) solve dt uf theta semi).
Notation step1 := (cn_advance keys kind (Res W1 dh1 Env1) (swe_mass W1 M1 disp) solve dt uf theta semi).
(** The system of a time step in the whole domain has a solution ... *)
Definition whole_solves (k : @coefs Val Bd) (u0 u : dof -> R) : Prop :=
  theta_step (swe_mass W M disp)
    (fun v => Res W dh Env v (if semi then u0 else v) (view kind k) (view kind k) (oth k))
    (fun v => Res W dh Env v v (view_old kind k) (view_old kind k) (oth k)) dt theta u0 u.
(** ... and that of the basin alone does not have more than one. *)
Definition basin_solves (k : @coefs Val Bd) (u0 u : dof -> R) : Prop :=
  theta_step (swe_mass W1 M1 disp)
    (fun v => Res W1 dh1 Env1 v (if semi then u0 else v) (view kind k) (view kind k) (oth k))
    (fun v => Res W1 dh1 Env1 v v (view_old kind k) (view_old kind k) (oth k)) dt theta u0 u.
Definition one_basin_solution (k : @coefs Val Bd) (u0 : dof -> R) : Prop :=
  forall u v, basin_solves k u0 u -> basin_solves k u0 v -> uv_of W1 u = uv_of W1 v /\ eta_of W1 u = eta_of W1 v.

Lemma basin_of_whole : forall k u0 u01 u, part_of P W W1 u0 u01 -> whole_solves k u0 u -> basin_solves k u01 (basin_dof u01 u).
Proof.
  intros k u0 u01 u H0 Hu x. destruct (other_dec x) as [Hx|Hx].
  - specialize (Hu x). unfold Res in *.
    rewrite !(basin_mass disp _ _ x (basin_part u01 u) Hx), !(basin_mass disp _ _ x H0 Hx).
    rewrite (C95_assembled _ u0 u01 u0 u01 x H0 H0 Hx).
    rewrite (C95_assembled _ u (basin_dof u01 u) (if semi then u0 else u) (if semi then u01 else basin_dof u01 u) x (basin_part u01 u)); [exact Hu| |exact Hx].
    destruct semi; [exact H0|apply basin_part].
  - unfold Res. rewrite !other_vector, !other_mass, other_dof by exact Hx. ring.
Qed.

(** After any number of Crank-Nicolson steps of the whole domain, the water of the basin is
    that of a run with the basin alone: no state, forcing or boundary outside has any effect. *)
Theorem C95_swe_run : forall (good : @coefs Val Bd -> Prop) ts (s s1 : @tst dof Val Bd),
  (forall t k, good k -> good (force_co uf t k)) -> (forall k, good k -> good (update_fields_old keys kind k)) ->
  exact_solver solve -> (forall k u, good k -> exists v, whole_solves k u v) -> (forall k u, good k -> one_basin_solution k u) ->
  good (tco s) -> tco s1 = tco s -> part_of P W W1 (tsol s) (tsol s1) ->
  part_of P W W1 (tsol (fold_left (fun s t => step t s) ts s)) (tsol (fold_left (fun s t => step1 t s) ts s1)).
Proof.
  intros good ts s s1 Hf Hu Hs Hd Hq. revert s s1. induction ts as [|t ts IH]; intros s s1 Hc Hco H0; cbn [fold_left]; [exact H0|].
  pose proof (Hf (t + dt) _ Hc) as Hc'. pose proof (Hd _ (tsol s) Hc') as Hex.
  destruct (cn_advance_spec keys kind (Res W dh Env) (swe_mass W M disp) solve dt uf theta semi t s Hs Hex) as [Q Q2].
  pose proof (cn_advance_spec keys kind (Res W1 dh1 Env1) (swe_mass W1 M1 disp) solve dt uf theta semi t s1 Hs) as N.
  rewrite Hco in N. pose proof (basin_of_whole _ _ _ _ H0 Q) as R. destruct N as [N N2].
  { eexists. exact R. }
  apply IH; [rewrite Q2; apply Hu, Hc'|rewrite Q2, N2; reflexivity|].
  destruct (Hq _ (tsol s1) Hc' _ _ N R) as (E1 & E2). destruct (basin_part (tsol s1) (tsol (step t s))) as (B1 & B2).
  split; [rewrite E1; exact B1|rewrite E2; exact B2].
Qed.
End Theta.

(** *** Explicit steps *)
Lemma cut_v_plus : forall a b k, cut_v P (uv_of W (plus_k a k b)) = mk_vf (add_s (v_x (cut_v P (uv_of W a))) (scale_s k (v_x (cut_v P (uv_of W b)))))
   (add_s (v_y (cut_v P (uv_of W a))) (scale_s k (v_y (cut_v P (uv_of W b))))).
Proof. intros a b k. unfold cut_v at 1. rewrite !uv_plus. cbn [v_x v_y cut_v]. rewrite <- !cut_add. reflexivity. Qed.
Lemma part_plus : forall u u1 k v v1, part_of P W W1 u u1 -> part_of P W W1 v v1 -> part_of P W W1 (plus_k u k v) (plus_k u1 k v1).
Proof.
  intros u u1 k v v1 (U1 & U2) (V1 & V2). split.
  - rewrite cut_v_plus, <- U1, <- V1, uv_plus. reflexivity.
  - rewrite !eta_plus, U2, V2, cut_add. reflexivity.
Qed.
Lemma part_along : forall n u u1 h (b : nat -> R) k k1, part_of P W W1 u u1 ->
  (forall i, (i < n)%nat -> part_of P W W1 (k i) (k1 i)) -> part_of P W W1 (along u h n b k) (along u1 h n b k1).
Proof.
  intros n u u1 h b k k1 Hu Hk. induction n as [|n IH].
  - replace (along u h 0 b k) with u by (apply functional_extensionality; intro x; unfold along, Sum; cbn; ring).
    replace (along u1 h 0 b k1) with u1 by (apply functional_extensionality; intro x; unfold along, Sum; cbn; ring). exact Hu.
  - rewrite !along_S. apply part_plus; [apply IH; intros i Hi; apply Hk; lia|apply (Hk n); lia].
Qed.

Theorem C95_explicit_run : forall {En : Type} (EnvR : En -> swe_env V F B) (Fx Fx1 : En -> (dof -> R) -> dof -> R)
  (T : tableau) dte ufe ts (s s1 : @st dof En),
  (forall e u x, swe_mass W M (fun _ _ => 0) (Fx e u) x = swe_vector W (EnvR e) dh u u x) ->
  (forall e u x, swe_mass W1 M1 (fun _ _ => 0) (Fx1 e u) x = swe_vector W1 (env_of P (EnvR e)) dh1 u u x) ->
  (forall k k', (forall x, of_basin x -> swe_mass W1 M1 (fun _ _ => 0) k x = swe_mass W1 M1 (fun _ _ => 0) k' x) ->
     uv_of W1 k = uv_of W1 k' /\ eta_of W1 k = eta_of W1 k') ->
  dte <> 0 -> env s1 = env s -> (ini s = true -> sol_old s = sol s) -> (ini s1 = true -> sol_old s1 = sol s1) ->
  part_of P W W1 (sol s) (sol s1) ->
  part_of P W W1 (sol (fold_left (fun s t => erk_advance T Fx true dte ufe t s) ts s))
                 (sol (fold_left (fun s t => erk_advance T Fx1 true dte ufe t s) ts s1)).
Proof.
  intros En EnvR Fx Fx1 T dte ufe ts s s1 HF HF1 Huq Hd. revert s s1.
  assert (Hten : forall e u u1, part_of P W W1 u u1 -> part_of P W W1 (Fx e u) (Fx1 e u1)).
  { intros e u u1 Hu. destruct (Huq (Fx1 e u1) (basin_dof (Fx1 e u1) (Fx e u))) as (E1 & E2).
    - intros x Hx. rewrite HF1, (basin_mass _ _ _ x (basin_part _ _) Hx), HF. apply C95_assembled; assumption.
    - destruct (basin_part (Fx1 e u1) (Fx e u)) as (B1 & B2). split; [rewrite E1; exact B1|rewrite E2; exact B2]. }
  induction ts as [|t ts IH]; intros s s1 He Hi Hi1 Hs; cbn [fold_left]; [exact Hs|].
  destruct (erk_advance_spec T Fx dte ufe t s Hd) as ((k & Hk & Hu) & HEnv & Ho & _).
  destruct (erk_advance_spec T Fx1 dte ufe t s1 Hd) as ((k1 & Hk1 & Hu1) & HEnv1 & Ho1 & _).
  apply IH; [rewrite HEnv, HEnv1, He; reflexivity|intros _; exact Ho|intros _; exact Ho1|]. rewrite Hu, Hu1.
  assert (H0 : part_of P W W1 (erk_start s) (erk_start s1)).
  { unfold erk_start. destruct (ini s) eqn:I1, (ini s1) eqn:I2; rewrite ?Hi, ?Hi1 by reflexivity; exact Hs. }
  assert (HK : forall n i, (i < n)%nat -> (i < ns T)%nat -> part_of P W W1 (k i) (k1 i)).
  { induction n as [|n IHn]; intros i H1 H2; [lia|]. rewrite (Hk i H2), (Hk1 i H2), He. apply Hten.
    apply part_along; [exact H0|]. intros j Hj. apply IHn; lia. }
  apply part_along; [exact H0|]. intros i Hin. apply (HK (S i)); [lia|exact Hin].
Qed.
End C95.

(* ------------------------------------------------------------------ *)
(** * Example: two channels of two cells each, in one mesh *)

(** A point is given by its channel and its place in it. *)
Definition ponds_mesh : mesh (bool * bool) bool (bool * bool) :=
  mk_mesh [(false, false); (false, true); (true, false); (true, true)] (fun _ => 1) [false; true] (fun _ => 1) (fun _ => (1, 0))
          [(false, false); (false, true); (true, false); (true, true)] (fun _ => 1) (fun b => end_normal (snd b))
          (fun b => if fst b then 2%nat else 1%nat).
(** 10 m deep and with a tide in the first channel, 20 m deep and with a higher one in the second *)
Definition ponds : swe_env (bool * bool) bool (bool * bool) :=
  mk_env ponds_mesh 10 1000 (fun b e => b + e) (fun p => if fst p then 20 else 10) (fun f _ => if f then 20 else 10) (fun b => if fst b then 20 else 10)
    (fun _ => 1) (fun m => Open (mk_ext (Some (fun _ => if Nat.eqb m 1 then 1 / 10 else 5)) USym None)) (fun _ => None) true true true (Some 1) None
    false false (fun _ _ => 4) (fun _ => 4) (fun _ => (0, 0))
    (Some (fun _ => 1 / 10000)) None None None (Some (fun _ => 1 / 50)) None 0.4 0
    None None None None [].
Definition pond_pc (a : bool * bool -> R) : sfield (bool * bool) bool (bool * bool) :=
  mk_s a (fun _ => (0, 0)) (fun f s => a (f, negb s)) (fun _ _ => (0, 0)) a (fun _ => (0, 0)).
Definition pond_unit (a b c d i : nat) (p : bool * bool) : R :=
  if Nat.eqb i (match p with (false, false) => a | (false, true) => b | (true, false) => c | (true, true) => d end) then 1 else 0.
Definition ponds_space : @space (bool * bool) bool (bool * bool) :=
  mk_space 4 (fun i => pond_pc (pond_unit 0 1 2 3 i)) 8 (fun j => mk_vf (pond_pc (pond_unit 0 1 4 5 j)) (pond_pc (pond_unit 2 3 6 7 j))).
(** The first channel. *)
Definition first_pond : basin (bool * bool) bool (bool * bool) := mk_basin (fun p => negb (fst p)) negb (fun b => negb (fst b)).
Lemma ponds_separated : separated first_pond ponds_space 2 4.
Proof.
  assert (Q : forall a a' : bool * bool -> R, (forall c, a' (false, c) = a (false, c)) -> (forall c, a' (true, c) = 0) ->
            cut_s first_pond (pond_pc a) = pond_pc a').
  { intros a a' H1 H0. apply sfield_ext; intros;
    repeat match goal with x : (bool * bool)%type |- _ => destruct x as [[|] ?] | f : bool |- _ => destruct f end;
    cbn [cut_s pond_pc first_pond in_v in_f in_b fst negb s_v s_gv s_f s_gf s_b s_gb]; rewrite ?H1, ?H0; reflexivity. }
  assert (Z : pond_pc (fun _ => 0) = zero_s) by reflexivity.
  split; [cbn; lia|]. split; [cbn; lia|]. cbn [ponds_space n_eta n_uv phi psi]. unfold cut_v. cbn [v_x v_y]. rewrite <- !Z. repeat split.
  - intros [|[|i]] Hi; [| |lia]; apply Q; intros [|]; reflexivity.
  - intros [|[|[|[|i]]]] Hi; try lia; apply Q; intros [|]; reflexivity.
  - intros [|[|[|[|j]]]] Hj; try lia; f_equal; apply Q; intros [|]; reflexivity.
  - intros [|[|[|[|[|[|[|[|j]]]]]]]] Hj; try lia; f_equal; apply Q; intros [|]; reflexivity.
Qed.
Lemma ponds_mass : forall u x, swe_mass ponds_space ponds_mesh (fun _ _ => 0) u x = u x.
Proof.
  intros u x. destruct x as [j|i]; cbn [swe_mass ponds_space n_eta n_uv].
  - destruct j as [|[|[|[|[|[|[|[|j]]]]]]]]; cbn [Nat.ltb Nat.leb]; try reflexivity;
    unfold dx, integral, vv, dot2, uv_of, pond_unit; cbn -[Rplus Rmult Rminus Rdiv Ropp IZR]; lra.
  - destruct i as [|[|[|[|i]]]]; cbn [Nat.ltb Nat.leb]; try reflexivity;
    unfold dx, integral, eta_of, pond_unit; cbn -[Rplus Rmult Rminus Rdiv Ropp IZR]; lra.
Qed.
Lemma pond_mass : forall u x, swe_mass (space_of ponds_space 2 4) (mesh_of first_pond ponds_mesh) (fun _ _ => 0) u x = u x.
Proof.
  intros u x. destruct x as [j|i]; cbn [swe_mass ponds_space space_of n_eta n_uv].
  - destruct j as [|[|[|[|j]]]]; cbn [Nat.ltb Nat.leb]; try reflexivity;
    unfold dx, integral, vv, dot2, uv_of, pond_unit; cbn -[Rplus Rmult Rminus Rdiv Ropp IZR]; lra.
  - destruct i as [|[|i]]; cbn [Nat.ltb Nat.leb]; try reflexivity;
    unfold dx, integral, eta_of, pond_unit; cbn -[Rplus Rmult Rminus Rdiv Ropp IZR]; lra.
Qed.
(** From any state, the first channel moves as it does alone. *)
Example C95_example : forall solve uf dt ts (s s1 : @tst dof unit unit), exact_solver solve ->
  part_of first_pond ponds_space (space_of ponds_space 2 4) (tsol s) (tsol s1) -> tco s1 = tco s ->
  let W1 := space_of ponds_space 2 4 in
  part_of first_pond ponds_space W1
    (tsol (fold_left (fun s t => cn_advance [] (fun _ => KExpr) (Res ponds_space (fun _ _ _ => 0) (fun _ _ _ => ponds))
             (swe_mass ponds_space ponds_mesh (fun _ _ => 0)) solve dt uf 0 true t s) ts s))
    (tsol (fold_left (fun s t => cn_advance [] (fun _ => KExpr) (Res W1 (fun _ _ _ => 0) (fun _ _ _ => env_of first_pond ponds))
             (swe_mass W1 (mesh_of first_pond ponds_mesh) (fun _ _ => 0)) solve dt uf 0 true t s) ts s1)) /\
  m_cells (mesh_of first_pond ponds_mesh) = [(false, false); (false, true)] /\
  m_facets (mesh_of first_pond ponds_mesh) = [false].
Proof.
  intros solve uf dt ts s s1 Hs H0 Hco W1. subst W1. split; [|split; reflexivity].
  refine (C95_swe_run first_pond ponds_space 2 4 ponds_separated ponds_mesh (fun _ _ _ => 0) (fun _ _ _ => 0) (fun _ _ _ _ _ _ _ _ => eq_refl)
            (fun _ _ _ => ponds) (fun _ _ => 0) [] (fun _ => KExpr) solve dt uf 0 true
            (fun _ => True) ts s s1 (fun _ _ _ => I) (fun _ _ => I) Hs _ _ I Hco H0).
  - intros k u _. exists (fun x => u x + dt * Res ponds_space (fun _ _ _ => 0) (fun _ _ _ => ponds) u u (view_old (fun _ => KExpr) k)
                  (view_old (fun _ => KExpr) k) (oth k) x). intro x. rewrite !ponds_mass. ring.
  - intros k u _ a b Ha Hb. assert (a = b) as ->; [|split; reflexivity].
    apply functional_extensionality. intro x. specialize (Ha x). specialize (Hb x). rewrite !pond_mass in Ha, Hb. lra.
Qed.
(** Such states exist for every state of the two channels. *)
Example C95_states : forall u, part_of first_pond ponds_space (space_of ponds_space 2 4) u (basin_dof 2 4 (fun _ => 0) u).
Proof. intro u. apply basin_part, ponds_separated. Qed.

Print Assumptions C95_swe.
Print Assumptions C95_tracer.
Print Assumptions C95_assembled.
Print Assumptions C95_swe_run.
Print Assumptions C95_explicit_run.
