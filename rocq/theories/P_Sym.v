(** C92: a symmetric problem has a symmetric solution, and the names of the points and
    markers of a mesh do not matter. *)
From Coq Require Import Reals List String Bool Arith Lia Lra Permutation FunctionalExtensionality.
From Verif Require Import Forms_Model Forms_Spec Forms_Proofs P_SWE P_Tracer2d
  RK_Model RK_Spec RK_Proofs RK_Proofs4 TimeInt_Model TimeInt_Spec TimeInt_Proofs P_RungeKutta P_TimeInt
  Galerkin_Model Galerkin_Proofs P_Galerkin WaveEnergy_Proofs Frame_Spec Frame_Proofs Sym_Spec Sym_Proofs TimeInt_Model.
Import ListNotations.
Open Scope R_scope.

(** ** Names do not matter *)
Theorem C92_renamed_swe : forall {V F B V' F' B'} (r : naming V F B V' F' B') (E : swe_env V F B) psi phi uv eta uv_old eta_old dh,
  faithful r ->
  momentum_residual (ren_env r E) (ren_v r psi) (ren_v r uv) (ren_s r eta) (ren_v r uv_old) (ren_s r eta_old)
  = momentum_residual E psi uv eta uv_old eta_old /\
  continuity_residual (ren_env r E) (ren_s r phi) (ren_v r uv) (ren_s r eta) (ren_v r uv_old) (ren_s r eta_old) (at_v r dh)
  = continuity_residual E phi uv eta uv_old eta_old dh.
Proof.
  intros V F B V' F' B' r E psi phi uv eta uv_old eta_old dh Hr. split; [apply (ren_momentum r Hr)|].
  apply (ren_continuity r Hr). reflexivity.
Qed.

Theorem C92_renamed_tracer : forall {V F B V' F' B'} (r : naming V F B V' F' B') (E : swe_env V F B) T phi c uv elev gext,
  faithful r ->
  let E' := ren_env r E in let T' := ren_tenv r T in
  tracer_advection E' T' (ren_s r phi) (ren_s r c) (ren_v r uv) (ren_s r elev) = tracer_advection E T phi c uv elev /\
  cons_advection E' T' (ren_s r phi) (ren_s r c) (ren_v r uv) (ren_s r elev) = cons_advection E T phi c uv elev /\
  tracer_diffusion E' T' (ren_s r phi) (ren_s r c) (ren_v r uv) (ren_s r elev) (at_b r gext) = tracer_diffusion E T phi c uv elev gext /\
  tracer_source E' T' (ren_s r phi) = tracer_source E T phi /\
  cons_source E' T' (ren_s r phi) (ren_s r elev) = cons_source E T phi elev.
Proof.
  intros V F B V' F' B' r E T phi c uv elev gext Hr E' T'.
  split; [apply (ren_tadv r Hr)|]. split; [apply (ren_cons r Hr)|]. split; [apply (ren_tdiff r Hr)|].
  split; [apply (ren_tsource r Hr)|apply (ren_csource r Hr)].
Qed.

Section C92.
Context {V F B : Type}.
Variable r : naming V F B V F B.
Variable w : Frame_Spec.view V F B.
Hypothesis Hr : faithful r.
Hypothesis Hw : proper w.

(** ** The equations of a symmetric problem *)
Theorem C92_moved_swe : forall E psi phi uv eta uv_old eta_old dh, symmetric_swe r w E ->
  momentum_residual E (moved_v r w psi) (moved_v r w uv) (moved_s r w eta) (moved_v r w uv_old) (moved_s r w eta_old)
  = momentum_residual E psi uv eta uv_old eta_old /\
  continuity_residual E (moved_s r w phi) (moved_v r w uv) (moved_s r w eta) (moved_v r w uv_old) (moved_s r w eta_old) (at_v r dh)
  = continuity_residual E phi uv eta uv_old eta_old dh.
Proof.
  intros E psi phi uv eta uv_old eta_old dh HE. split; [apply moved_momentum; assumption|].
  apply moved_continuity; try assumption. reflexivity.
Qed.

(** ** Shallow water runs *)
Section Swe.
Variable d : dof_map.
Variable W : @space V F B.
Hypothesis HW : symmetric_space r w d W.
Variable M : mesh V F B.
Hypothesis HM : turn_mesh w (ren_mesh r M) = M.
Variable dh : (dof -> R) -> (dof -> R) -> V -> R.
(** div(H u), used by continuous velocities only, is that of the moved functions *)
Hypothesis Hdh : forall u v u' v', moves r w W u u' -> moves r w W v v' -> forall p, dh u' v' p = dh u v (r_v r p).
Notation sym := (symmetric_state r w W).
Definition same_state (u v : dof -> R) : Prop := uv_of W u = uv_of W v /\ eta_of W u = eta_of W v.

Lemma sym_moves : forall u, sym u -> moves r w W u u.
Proof. intros u (H1 & H2). split; symmetry; assumption. Qed.

(** A vector equation between rows which are moved with the functions. *)
Definition moved_rows (a a' : dof -> R) : Prop :=
  (forall j, (j < n_uv W)%nat -> a' (UV (pu d j)) = su d j * a (UV j)) /\
  (forall i, (i < n_eta W)%nat -> a' (ETA (pe d i)) = a (ETA i)).
Lemma moved_rows_eq : forall a b a' b', moved_rows a a' -> moved_rows b b' -> (forall x, a x = b x) ->
  (forall j, (j < n_uv W)%nat -> a' (UV j) = b' (UV j)) /\ (forall i, (i < n_eta W)%nat -> a' (ETA i) = b' (ETA i)).
Proof.
  intros a b a' b' (A1 & A2) (B1 & B2) H. destruct HW as (P1 & P2 & _). split.
  - intros k Hk. destruct (permutes_in _ _ _ k P2 Hk) as (j & Hj & <-). rewrite A1, B1, H by exact Hj. reflexivity.
  - intros k Hk. destruct (permutes_in _ _ _ k P1 Hk) as (i & Hi & <-). rewrite A2, B2, H by exact Hi. reflexivity.
Qed.
Lemma moved_vector : forall E u v u' v', symmetric_swe r w E -> moves r w W u u' -> moves r w W v v' ->
  moved_rows (swe_vector W E dh u v) (swe_vector W E dh u' v').
Proof.
  intros E u v u' v' HE Hu Hv. split.
  - intros j Hj. apply (rows_uv r w Hr Hw d W HW); assumption.
  - intros i Hi. apply (rows_eta r w Hr Hw d W HW); try assumption. apply Hdh; assumption.
Qed.
Lemma moved_mass : forall disp u u', (forall p h, disp p h = disp (r_v r p) h) -> moves r w W u u' ->
  moved_rows (swe_mass W M disp u) (swe_mass W M disp u').
Proof.
  intros disp u u' Hd Hu. split.
  - intros j Hj. apply (mass_uv r w Hr Hw d W HW); assumption.
  - intros i Hi. apply (mass_eta r w Hr Hw d W HW); assumption.
Qed.
Lemma rows_lin : forall a a' b b' (c k : R), moved_rows a a' -> moved_rows b b' ->
  moved_rows (fun x => c * a x + k * b x) (fun x => c * a' x + k * b' x).
Proof.
  intros a a' b b' c k (A1 & A2) (B1 & B2). split.
  - intros j Hj. rewrite A1, B1 by exact Hj. ring.
  - intros i Hi. rewrite A2, B2 by exact Hi. reflexivity.
Qed.

Section Theta.
Context {Val Bd : Type}.
Variable Env : (string -> option Val) -> (string -> option Val) -> Bd -> swe_env V F B.
Variable disp : V -> R -> R.
Hypothesis Hdisp : forall p h, disp p h = disp (r_v r p) h.
Variable keys : list string.
Variable kind : string -> ckind.
Variable solve : ((dof -> R) -> dof -> R) -> (dof -> R) -> dof -> R.
Variable dt : R.
Variable uf : option (@forcing Val Bd).
Variable theta : R.
Variable semi : bool.
Notation step := (cn_advance keys kind (Res W dh Env) (swe_mass W M disp) solve dt uf theta semi).
(** Fields and boundary data with which the problem is symmetric, now and with the values
    of the last step. *)
Definition symmetric_data (c : @coefs Val Bd) : Prop :=
  symmetric_swe r w (Env (view kind c) (view kind c) (oth c)) /\
  symmetric_swe r w (Env (view_old kind c) (view_old kind c) (oth c)).
(** The system of a time step has a solution, and only one. *)
Definition determined (c : @coefs Val Bd) (u0 : dof -> R) : Prop :=
  let solves u := theta_step (swe_mass W M disp)
    (fun v => Res W dh Env v (if semi then u0 else v) (view kind c) (view kind c) (oth c))
    (fun v => Res W dh Env v v (view_old kind c) (view_old kind c) (oth c)) dt theta u0 u in
  (exists u, solves u) /\ forall u v, solves u -> solves v -> same_state u v.

Lemma theta_moved : forall c u0 u, symmetric_data c -> sym u0 ->
  let solves u := theta_step (swe_mass W M disp)
    (fun v => Res W dh Env v (if semi then u0 else v) (view kind c) (view kind c) (oth c))
    (fun v => Res W dh Env v v (view_old kind c) (view_old kind c) (oth c)) dt theta u0 u in
  solves u -> solves (move_dof d W u).
Proof.
  intros c u0 u (HE & HEo) Hs solves Hu. unfold solves in *. unfold theta_step, Res in *.
  pose proof (sym_moves u0 Hs) as H0. pose proof (moves_move r w d W HW u) as H1.
  assert (HL : moves r w W (if semi then u0 else u) (if semi then u0 else move_dof d W u)) by (destruct semi; assumption).
  pose proof (rows_lin _ _ _ _ 1 (-1) (moved_mass disp _ _ Hdisp H1) (moved_mass disp _ _ Hdisp H0)) as A.
  pose proof (rows_lin _ _ _ _ (dt * theta) (dt * (1 - theta)) (moved_vector _ _ _ _ _ HE H1 HL) (moved_vector _ _ _ _ _ HEo H0 H0)) as D.
  destruct (moved_rows_eq _ _ _ _ A D) as [Q1 Q2].
  { intro x. specialize (Hu x). lra. }
  intro x. destruct x as [j|i].
  - destruct (Nat.ltb j (n_uv W)) eqn:L.
    + specialize (Q1 j (proj1 (Nat.ltb_lt _ _) L)). cbv beta in Q1. lra.
    + specialize (Hu (UV j)). cbn [swe_mass swe_vector move_dof] in *. rewrite L in *. lra.
  - destruct (Nat.ltb i (n_eta W)) eqn:L.
    + specialize (Q2 i (proj1 (Nat.ltb_lt _ _) L)). cbv beta in Q2. lra.
    + specialize (Hu (ETA i)). cbn [swe_mass swe_vector move_dof] in *. rewrite L in *. lra.
Qed.

(** A run from a symmetric state stays symmetric, after any number of Crank-Nicolson
    steps, nonlinear or linearised, with and without wetting and drying. *)
Theorem C92_swe_run : forall (good : @coefs Val Bd -> Prop) ts s,
  (forall c, good c -> symmetric_data c) ->
  (forall t c, good c -> good (force_co uf t c)) -> (forall c, good c -> good (update_fields_old keys kind c)) ->
  exact_solver solve -> (forall c u, good c -> sym u -> determined c u) ->
  good (tco s) -> sym (tsol s) ->
  sym (tsol (fold_left (fun s t => step t s) ts s)).
Proof.
  intros good ts s Hg Hf Hu Hs Hd. revert s. induction ts as [|t ts IH]; intros s Hc H0; cbn [fold_left]; [exact H0|].
  pose proof (Hf (t + dt) _ Hc) as Hc'. destruct (Hd _ _ Hc' H0) as (Hex & Huq).
  destruct (cn_advance_spec keys kind (Res W dh Env) (swe_mass W M disp) solve dt uf theta semi t s Hs Hex) as [Q Q2].
  apply IH; [rewrite Q2; apply Hu, Hc'|].
  pose proof (theta_moved _ _ _ (Hg _ Hc') H0 Q) as Q'. destruct (Huq _ _ Q' Q) as (E1 & E2).
  rewrite (move_dof_uv r w d W HW) in E1. rewrite (move_dof_eta r w d W HW) in E2. split; assumption.
Qed.
End Theta.

(** ** Explicit steps *)
Lemma moved_plus_s : forall p k q, moved_s r w (add_s p (scale_s k q)) = add_s (moved_s r w p) (scale_s k (moved_s r w q)).
Proof.
  intros p k q. unfold moved_s. change (ren_s r (add_s p (scale_s k q))) with (add_s (ren_s r p) (scale_s k (ren_s r q))).
  rewrite turn_s_add, turn_s_scale. reflexivity.
Qed.
Lemma moved_plus_v : forall p k q, moved_v r w (add_v p (scale_v k q)) = add_v (moved_v r w p) (scale_v k (moved_v r w q)).
Proof.
  intros p k q. unfold moved_v, turn_v, add_v, scale_v. cbn [v_x v_y ren_v].
  f_equal; apply sfield_ext; intros; cbn [ren_s turn_s add_s scale_s s_v s_gv s_f s_gf s_b s_gb]; try apply pair_ext; cbn; ring.
Qed.
Lemma sym_plus : forall u k v, sym u -> sym v -> sym (plus_k u k v).
Proof.
  intros u k v (U1 & U2) (V1 & V2). split.
  - rewrite uv_plus, moved_plus_v, U1, V1. reflexivity.
  - rewrite eta_plus, moved_plus_s, U2, V2. reflexivity.
Qed.
Lemma sym_along : forall n u h (b : nat -> R) k, sym u -> (forall i, (i < n)%nat -> sym (k i)) -> sym (along u h n b k).
Proof.
  intros n u h b k Hu Hk. induction n as [|n IH].
  - replace (along u h 0 b k) with (plus_k u 0 u); [apply sym_plus; exact Hu|].
    apply functional_extensionality; intro x. unfold plus_k, along, Sum; cbn. ring.
  - replace (along u h (S n) b k) with (plus_k (along u h n b k) (h * b n) (k n)).
    + apply sym_plus; [apply IH; intros i Hi; apply Hk; lia|apply Hk; lia].
    + apply functional_extensionality; intro x. unfold plus_k, along, Sum. rewrite seq_S, map_app, fold_right_app. cbn [map fold_right plus].
      assert (G : forall l (a : R), fold_right Rplus a l = fold_right Rplus 0 l + a).
      { induction l as [|y l G]; intro a; cbn [fold_right]; [ring|rewrite G; ring]. }
      rewrite (G _ (_ + 0)). ring.
Qed.

Theorem C92_explicit_run : forall {En : Type} (EnvR : En -> swe_env V F B) (Fx : En -> (dof -> R) -> dof -> R) (good : En -> Prop)
  (T : tableau) dte ufe ts (s : @st dof En),
  (forall e, good e -> symmetric_swe r w (EnvR e)) ->
  (forall f t e, ufe = Some f -> good e -> good (f t e)) ->
  (forall e u x, swe_mass W M (fun _ _ => 0) (Fx e u) x = swe_vector W (EnvR e) dh u u x) ->
  (forall k k', (forall x, swe_mass W M (fun _ _ => 0) k x = swe_mass W M (fun _ _ => 0) k' x) -> same_state k k') ->
  dte <> 0 -> good (env s) -> (ini s = true -> sol_old s = sol s) -> sym (sol s) ->
  sym (sol (fold_left (fun s t => erk_advance T Fx true dte ufe t s) ts s)).
Proof.
  intros En EnvR Fx good T dte ufe ts s HE Hf HF Huq Hd. revert s.
  assert (Hforced : forall l e, good e -> good (forced ufe l e)).
  { intros l e He. unfold forced. destruct ufe as [f|] eqn:U; [|exact He]. revert e He. induction l as [|t l IH]; intros e He; [exact He|].
    cbn [fold_left]. apply IH. apply (Hf f t e eq_refl He). }
  assert (Hten : forall e u, good e -> sym u -> sym (Fx e u)).
  { intros e u He Hu. pose proof (moves_move r w d W HW (Fx e u)) as H1.
    destruct (moved_rows_eq _ _ _ _ (moved_mass (fun _ _ => 0) _ _ (fun _ _ => eq_refl) H1)
                (moved_vector _ _ _ _ _ (HE e He) (sym_moves u Hu) (sym_moves u Hu)) (HF e u)) as [Q1 Q2].
    destruct (Huq (move_dof d W (Fx e u)) (Fx e u)) as (E1 & E2).
    - intro x. rewrite HF. destruct x as [j|i].
      + destruct (Nat.ltb j (n_uv W)) eqn:L; [apply Q1, Nat.ltb_lt, L|].
        pose proof (HF e u (UV j)) as Q. cbn [swe_mass swe_vector move_dof] in *. rewrite L in *. exact Q.
      + destruct (Nat.ltb i (n_eta W)) eqn:L; [apply Q2, Nat.ltb_lt, L|].
        pose proof (HF e u (ETA i)) as Q. cbn [swe_mass swe_vector move_dof] in *. rewrite L in *. exact Q.
    - rewrite (move_dof_uv r w d W HW) in E1. rewrite (move_dof_eta r w d W HW) in E2. split; assumption. }
  induction ts as [|t ts IH]; intros s He Hi Hs; cbn [fold_left]; [exact Hs|].
  destruct (erk_advance_spec T Fx dte ufe t s Hd) as ((k & Hk & Hu) & HEnv & Ho & _).
  apply IH; [rewrite HEnv; apply Hforced, He|intros _; exact Ho|]. rewrite Hu.
  assert (H0 : sym (erk_start s)).
  { unfold erk_start. destruct (ini s); [rewrite Hi by reflexivity|]; exact Hs. }
  assert (HK : forall n i, (i < n)%nat -> (i < ns T)%nat -> sym (k i)).
  { induction n as [|n IHn]; intros i H1 H2; [lia|]. rewrite (Hk i H2). apply Hten; [apply Hforced, He|].
    apply sym_along; [exact H0|]. intros j Hj. apply IHn; lia. }
  apply sym_along; [exact H0|]. intros i Hin. apply (HK (S i)); [lia|exact Hin].
Qed.
End Swe.

(** ** Tracer runs *)
Section Tracer.
Variables p q : nat -> nat.
Variable W : @tspace V F B.
Hypothesis HW : symmetric_tspace r w p q W.
Variable M : mesh V F B.
Hypothesis HM : turn_mesh w (ren_mesh r M) = M.
Context {Val Bd : Type}.
Variable conservative : bool.
Variable case : (string -> option Val) -> (string -> option Val) -> Bd -> @tcase V F B.
Variable keys : list string.
Variable kind : string -> ckind.
Variable solve : ((nat -> R) -> nat -> R) -> (nat -> R) -> nat -> R.
Variable dt : R.
Variable uf : option (@forcing Val Bd).
Variable theta : R.
Variable semi : bool.
Notation step := (cn_advance keys kind (TRes W case conservative) (tracer_mass W M) solve dt uf theta semi).
Notation sym := (symmetric_conc r w W).

(** The flow, the data and the boundary values are symmetric. *)
Definition symmetric_case (k : @tcase V F B) : Prop :=
  symmetric_swe r w (tc_E k) /\ symmetric_tracer r w (tc_T k) /\
  moved_v r w (tc_uv k) = tc_uv k /\ moved_s r w (tc_elev k) = tc_elev k /\
  tc_gext k = (fun b => act (w_q w) (tc_gext k (r_b r b))) /\
  upwind_clear w (ren_env r (tc_E k)) (ren_tenv r (tc_T k)) (ren_v r (tc_uv k)).
Definition symmetric_tdata (c : @coefs Val Bd) : Prop :=
  symmetric_case (case (view kind c) (view kind c) (oth c)) /\ symmetric_case (case (view_old kind c) (view_old kind c) (oth c)).
Definition tdetermined (c : @coefs Val Bd) (c0 : nat -> R) : Prop :=
  let solves u := theta_step (tracer_mass W M)
    (fun v => TRes W case conservative v (if semi then c0 else v) (view kind c) (view kind c) (oth c))
    (fun v => TRes W case conservative v v (view_old kind c) (view_old kind c) (oth c)) dt theta c0 u in
  (exists u, solves u) /\ forall u v, solves u -> solves v -> tracer_of W u = tracer_of W v.

Theorem C92_tracer_run : forall (good : @coefs Val Bd -> Prop) ts s,
  (forall c, good c -> symmetric_tdata c) ->
  (forall t c, good c -> good (force_co uf t c)) -> (forall c, good c -> good (update_fields_old keys kind c)) ->
  exact_solver solve -> (forall c u, good c -> sym u -> tdetermined c u) ->
  good (tco s) -> sym (tsol s) ->
  sym (tsol (fold_left (fun s t => step t s) ts s)).
Proof.
  intros good ts s Hg Hf Hu Hs Hd. revert s. induction ts as [|t ts IH]; intros s Hc H0; cbn [fold_left]; [exact H0|].
  pose proof (Hf (t + dt) _ Hc) as Hc'. destruct (Hd _ _ Hc' H0) as (Hex & Huq).
  destruct (cn_advance_spec keys kind (TRes W case conservative) (tracer_mass W M) solve dt uf theta semi t s Hs Hex) as [Q Q2].
  apply IH; [rewrite Q2; apply Hu, Hc'|].
  destruct (Hg _ Hc') as ((A1 & A2 & A3 & A4 & A5 & A6) & (B1 & B2 & B3 & B4 & B5 & B6)).
  set (new := tsol (step t s)) in *. clearbody new.
  assert (Q' : theta_step (tracer_mass W M)
    (fun v => TRes W case conservative v (if semi then tsol s else v) (view kind (force_co uf (t + dt) (tco s)))
       (view kind (force_co uf (t + dt) (tco s))) (oth (force_co uf (t + dt) (tco s))))
    (fun v => TRes W case conservative v v (view_old kind (force_co uf (t + dt) (tco s)))
       (view_old kind (force_co uf (t + dt) (tco s))) (oth (force_co uf (t + dt) (tco s)))) dt theta (tsol s) (move_c q W new)).
  { unfold theta_step, TRes, tvec in *. pose proof (move_c_of r w p q W HW new) as N. intro x.
    destruct (Nat.ltb x (n_c W)) eqn:L.
    - destruct (permutes_in _ _ _ x (proj1 HW) (proj1 (Nat.ltb_lt _ _) L)) as (i & Hi & <-). specialize (Q i).
      rewrite (tmass r w Hr Hw p q W HW M new) by assumption.
      rewrite (tmass r w Hr Hw p q W HW M (tsol s) (tsol s)) by (try assumption; symmetry; exact H0).
      rewrite (trows r w Hr Hw p q W HW conservative _ _ _ _ _ new) by assumption.
      rewrite (trows r w Hr Hw p q W HW conservative _ _ _ _ _ (tsol s) (tsol s)) by (try assumption; symmetry; exact H0).
      exact Q.
    - specialize (Q x). unfold tracer_mass, tracer_vector, move_c in *. rewrite L in *. exact Q. }
  pose proof (Huq _ _ Q' Q) as E. rewrite (move_c_of r w p q W HW) in E. exact E.
Qed.
End Tracer.
End C92.

(* ------------------------------------------------------------------ *)
(** * Example: a channel of two cells, open at both ends, on a rotating plane *)

(** Cell [false] is left of the facet, cell [true] right of it; each has one open end,
    with its own marker. *)
Definition end_normal (b : bool) : R * R := if b then (1, 0) else (-1, 0).
Definition channel_mesh : mesh bool unit bool :=
  mk_mesh [false; true] (fun _ => 1) [tt] (fun _ => 1) (fun _ => (1, 0)) [false; true] (fun _ => 1) end_normal
          (fun b => if b then 2%nat else 1%nat).
Definition pc (a : bool -> R) : sfield bool unit bool :=
  mk_s a (fun _ => (0, 0)) (fun _ s => a (negb s)) (fun _ _ => (0, 0)) a (fun _ => (0, 0)).
Definition channel : swe_env bool unit bool :=
  mk_env channel_mesh 10 1000 (fun b e => b + e) (fun _ => 10) (fun _ _ => 10) (fun _ => 10)
    (fun _ => 1) (fun _ => Open (mk_ext (Some (fun _ => 1 / 10)) USym None)) (fun _ => None) true true true (Some 1) None
    false false (fun _ _ => 4) (fun _ => 4) (fun _ => (0, 0))
    (Some (fun _ => 1 / 10000)) None None None (Some (fun _ => 1 / 50)) None 0.4 0
    None None None None [].
(** turned by half a turn about the middle of the facet *)
Definition half_turn : naming bool unit bool bool unit bool :=
  mk_naming negb negb (fun f => f) (fun f => f) negb negb (fun m => match m with 1 => 2 | 2 => 1 | _ => m end)%nat
            (fun m => match m with 1 => 2 | 2 => 1 | _ => m end)%nat.
Definition half_axes : Frame_Spec.view bool unit bool :=
  mk_view (mk_axes (-1) 0 0 (-1)) (fun _ => true) (@rev bool) (fun l => l) (@rev bool).
Definition flips (n : nat) : nat := match n with 0 => 1 | 1 => 0 | 2 => 3 | 3 => 2 | _ => n end%nat.
Definition turned_dofs : dof_map := mk_dm flips flips flips flips (fun _ => -1).
Definition unit_at (a b : nat) (i : nat) : bool -> R := fun c => if Nat.eqb i (if c then b else a) then 1 else 0.
Definition channel_space : @space bool unit bool :=
  mk_space 2 (fun i => pc (unit_at 0 1 i)) 4 (fun j => mk_vf (pc (unit_at 0 1 j)) (pc (unit_at 2 3 j))).

Example half_turn_faithful : faithful half_turn.
Proof.
  repeat split; intros; cbn; try apply negb_involutive. destruct m as [|[|[|m]]]; reflexivity.
Qed.
Example half_axes_proper : proper half_axes.
Proof.
  split; [repeat split; cbn; ring|]. repeat split; intro l; cbn; try apply Permutation_sym, Permutation_rev. apply Permutation_refl.
Qed.
Lemma channel_mesh_turned : turn_mesh half_axes (ren_mesh half_turn channel_mesh) = channel_mesh.
Proof.
  unfold turn_mesh, ren_mesh, channel_mesh. cbn [half_axes half_turn w_q w_swap w_ov w_of w_ob r_v r_v' r_f r_f' r_b r_b' r_m r_m' m_cells m_wv m_facets m_wf m_bnds m_wb m_nb m_marker].
  unfold old, normal, act; cbn [w_swap xorb half_axes qa qb qc qd m_nf ren_mesh channel_mesh half_turn r_f fst snd map rev app].
  f_equal.
  - apply functional_extensionality; intros f. f_equal; ring.
  - apply functional_extensionality; intros [|]; cbn; f_equal; ring.
  - apply functional_extensionality; intros [|]; reflexivity.
Qed.
Lemma channel_symmetric : symmetric_swe half_turn half_axes channel.
Proof.
  unfold symmetric_swe, turn_env, ren_env. cbn [e_mesh e_g e_rho0 e_depth e_bath_v e_bath_f e_bath_b e_len e_bnd e_drag_b e_eta_dg e_u_jump e_nonlinear e_lax
    e_nu e_grad_div e_grad_depth e_sigma_f e_sigma_b e_grad_h e_coriolis e_wind e_patm_grad e_quad e_manning e_nikuradse e_kappa e_smoother e_linear
    e_drag3d e_msource e_vsource e_farms channel option_map map].
  rewrite channel_mesh_turned.
  assert (H1 : turn_pt half_axes (at_v half_turn (fun _ : bool => (0, 0))) = fun _ => (0, 0)).
  { apply functional_extensionality; intro p. unfold turn_pt, at_v, act; cbn [fst snd half_axes w_q qa qb qc qd]. f_equal; ring. }
  assert (H2 : (fun p => det (w_q half_axes) * at_v half_turn (fun _ : bool => 1 / 10000) p) = fun _ => 1 / 10000).
  { apply functional_extensionality; intro p. unfold at_v, det; cbn [half_axes w_q qa qb qc qd]. field. }
  rewrite H1, H2. reflexivity.
Qed.
Lemma channel_space_symmetric : symmetric_space half_turn half_axes turned_dofs channel_space.
Proof.
  assert (P2 : permutes 2 flips flips).
  { split; [cbn; apply perm_swap|]. intros [|[|i]] H; [reflexivity|reflexivity|lia]. }
  assert (P4 : permutes 4 flips flips).
  { split; [cbn; apply perm_trans with [0; 1; 3; 2]%nat; [apply perm_swap|do 2 apply perm_skip; apply perm_swap]|].
    intros [|[|[|[|i]]]] H; try reflexivity; lia. }
  split; [exact P2|]. split; [exact P4|]. split; [|split].
  - intros i Hi. cbn [channel_space n_eta] in Hi. destruct i as [|[|i]]; [| |lia];
    (apply sfield_ext; intros; unfold moved_s, turn_s, ren_s, old, unit_at, act; cbn;
     repeat match goal with x : bool |- _ => destruct x end; cbn; try reflexivity; apply pair_ext; cbn; ring).
  - intros j Hj. cbn [channel_space n_uv] in Hj. destruct j as [|[|[|[|j]]]]; [| | | |lia];
    (unfold moved_v, turn_v, scale_v; f_equal; apply sfield_ext; intros; unfold turn_s, ren_s, old, unit_at, act, add2, scal2; cbn;
     repeat match goal with x : bool |- _ => destruct x end; cbn; try (apply pair_ext; cbn); ring).
  - intros j _. right. reflexivity.
Qed.
Lemma channel_mass : forall u x, swe_mass channel_space channel_mesh (fun _ _ => 0) u x = u x.
Proof.
  intros u x. destruct x as [j|i]; cbn [swe_mass channel_space n_eta n_uv].
  - destruct j as [|[|[|[|j]]]]; cbn [Nat.ltb Nat.leb]; [| | | |reflexivity];
    unfold dx, integral, vv, dot2, uv_of, unit_at; cbn -[Rplus Rmult Rminus Rdiv Ropp IZR]; lra.
  - destruct i as [|[|i]]; cbn [Nat.ltb Nat.leb]; [| |reflexivity];
    unfold dx, integral, eta_of, unit_at; cbn -[Rplus Rmult Rminus Rdiv Ropp IZR]; lra.
Qed.
(** water flowing to the middle from both sides, and sideways against each other *)
Definition meeting (x : dof) : R :=
  match x with UV 0 => 1 | UV 1 => -1 | UV 2 => 3 | UV 3 => -3 | ETA 0 => 1/2 | ETA 1 => 1/2 | _ => 0 end.
Example meeting_symmetric : symmetric_state half_turn half_axes channel_space meeting.
Proof.
  split.
  - rewrite <- (move_dof_uv half_turn half_axes turned_dofs channel_space channel_space_symmetric). unfold uv_of.
    f_equal; apply comb_ext; intros i Hi; (split; [|reflexivity]); cbn [channel_space n_uv] in Hi;
    destruct i as [|[|[|[|i]]]]; try lia; cbn; lra.
  - rewrite <- (move_dof_eta half_turn half_axes turned_dofs channel_space channel_space_symmetric). unfold eta_of.
    apply comb_ext; intros i Hi; (split; [|reflexivity]); cbn [channel_space n_eta] in Hi;
    destruct i as [|[|i]]; try lia; cbn; lra.
Qed.
Example C92_example : forall solve uf dt ts (s : @tst dof unit unit), exact_solver solve -> tsol s = meeting ->
  let step := cn_advance [] (fun _ => KExpr) (Res channel_space (fun _ _ _ => 0) (fun _ _ _ => channel))
                (swe_mass channel_space channel_mesh (fun _ _ => 0)) solve dt uf 0 true in
  symmetric_state half_turn half_axes channel_space (tsol (fold_left (fun s t => step t s) ts s)) /\
  moved_v half_turn half_axes (uv_of channel_space meeting) = uv_of channel_space meeting /\
  vv (uv_of channel_space meeting) false = (1, 3) /\ vv (uv_of channel_space meeting) true = (-1, -3).
Proof.
  intros solve uf dt ts s Hs E0 step. split; [|split; [apply meeting_symmetric|]].
  - apply (C92_swe_run half_turn half_axes half_turn_faithful half_axes_proper turned_dofs channel_space channel_space_symmetric
             channel_mesh channel_mesh_turned) with (good := fun _ => True); try (intros; exact I); try exact Hs.
    + reflexivity.
    + reflexivity.
    + intros c _. split; apply channel_symmetric.
    + intros c u _ _. split.
      * exists (fun x => u x + dt * Res channel_space (fun _ _ _ => 0) (fun _ _ _ => channel) u u (view_old (fun _ => KExpr) c)
                  (view_old (fun _ => KExpr) c) (oth c) x). intro x. rewrite !channel_mass. ring.
      * intros a b Ha Hb. assert (a = b) as ->; [|split; reflexivity].
        apply functional_extensionality. intro x. specialize (Ha x). specialize (Hb x). rewrite !channel_mass in Ha, Hb. lra.
    + rewrite E0. exact meeting_symmetric.
  - unfold vv, uv_of, meeting, unit_at. cbn -[Rplus Rmult Rminus Rdiv Ropp Rinv IZR]. split; f_equal; lra.
Qed.

(** The same with a Runge-Kutta method, whatever its coefficients. *)
Example C92_explicit_example : forall (T : tableau) dte ts (s : @st dof unit), dte <> 0 ->
  (ini s = true -> sol_old s = sol s) -> sol s = meeting ->
  symmetric_state half_turn half_axes channel_space
    (sol (fold_left (fun s t => erk_advance T (fun _ u => swe_vector channel_space channel (fun _ _ _ => 0) u u) true dte None t s) ts s)).
Proof.
  intros T dte ts s Hd Hi E0.
  apply (C92_explicit_run half_turn half_axes half_turn_faithful half_axes_proper turned_dofs channel_space channel_space_symmetric
           channel_mesh channel_mesh_turned (fun _ _ _ => 0)) with (EnvR := fun _ : unit => channel) (good := fun _ => True);
    try (intros; exact I); try assumption.
  - reflexivity.
  - intros e _. exact channel_symmetric.
  - intros e u x. apply channel_mass.
  - intros k k' H. assert (k = k') as ->; [|split; reflexivity].
    apply functional_extensionality. intro x. specialize (H x). rewrite !channel_mass in H. exact H.
  - rewrite E0. exact meeting_symmetric.
Qed.
(** A tracer released in both halves is carried to the middle symmetrically. *)
Definition channel_tr : tracer_env bool unit bool :=
  mk_tenv true None (fun _ => Some (mk_tb (Some (fun _ => 2)) USym None None)) (Some (pc (fun _ => 1))) (fun _ _ => 5) None 0.
Definition channel_case : @tcase bool unit bool :=
  mk_tcase channel channel_tr (uv_of channel_space meeting) (eta_of channel_space meeting) (fun _ => (0, 0)).
Definition channel_tspace : @tspace bool unit bool := mk_tspace 2 (phi channel_space).
Lemma channel_tmass : forall c i, tracer_mass channel_tspace channel_mesh c i = c i.
Proof.
  intros c i. unfold tracer_mass. destruct i as [|[|i]]; cbn [channel_tspace n_c Nat.ltb Nat.leb]; [| |reflexivity];
  unfold dx, integral, tracer_of, unit_at; cbn -[Rplus Rmult Rminus Rdiv Ropp IZR]; lra.
Qed.
Lemma channel_case_symmetric : symmetric_case half_turn half_axes channel_case.
Proof.
  split; [exact channel_symmetric|]. split; [|split; [apply meeting_symmetric|split; [apply meeting_symmetric|split; [|left; reflexivity]]]].
  - unfold symmetric_tracer, turn_tenv, ren_tenv. change (tc_T channel_case) with channel_tr. cbn [channel_tr t_dg t_lax t_bnd t_mu t_sigma_f t_source t_sign0 option_map].
    assert (H : turn_s half_axes (ren_s half_turn (pc (fun _ => 1))) = pc (fun _ => 1)).
    { apply sfield_ext; intros; unfold turn_s, ren_s, act; cbn; try reflexivity; apply pair_ext; cbn; ring. }
    rewrite H. reflexivity.
  - apply functional_extensionality; intro b. cbn. unfold act; cbn. f_equal; ring.
Qed.
Example C92_tracer_example : forall solve uf dt ts (s : @tst nat unit unit) (conservative : bool), exact_solver solve ->
  tsol s = (fun i => if Nat.ltb i 2 then 7 else 0) ->
  symmetric_conc half_turn half_axes channel_tspace
    (tsol (fold_left (fun s t => cn_advance [] (fun _ => KExpr) (TRes channel_tspace (fun _ _ _ => channel_case) conservative)
                                   (tracer_mass channel_tspace channel_mesh) solve dt uf 0 true t s) ts s)).
Proof.
  intros solve uf dt ts s conservative Hs E0.
  assert (HW : symmetric_tspace half_turn half_axes flips flips channel_tspace).
  { destruct channel_space_symmetric as (P & _ & Q & _). split; [exact P|exact Q]. }
  apply (C92_tracer_run half_turn half_axes half_turn_faithful half_axes_proper flips flips channel_tspace HW
           channel_mesh channel_mesh_turned) with (good := fun _ => True); try (intros; exact I); try exact Hs.
  - intros c _. split; apply channel_case_symmetric.
  - intros c u _ _. split.
    + exists (fun i => u i + dt * TRes channel_tspace (fun _ _ _ => channel_case) conservative u u (view_old (fun _ => KExpr) c)
                (view_old (fun _ => KExpr) c) (oth c) i). intro x. rewrite !channel_tmass. ring.
    + intros a b Ha Hb. assert (a = b) as ->; [|reflexivity].
      apply functional_extensionality. intro x. specialize (Ha x). specialize (Hb x). rewrite !channel_tmass in Ha, Hb. lra.
  - unfold symmetric_conc. rewrite E0. rewrite <- (move_c_of half_turn half_axes flips flips channel_tspace HW). unfold tracer_of.
    apply comb_ext; intros i Hi; (split; [|reflexivity]). cbn [channel_tspace n_c] in Hi. destruct i as [|[|i]]; [reflexivity|reflexivity|lia].
Qed.

Print Assumptions C92_renamed_swe.
Print Assumptions C92_renamed_tracer.
Print Assumptions C92_moved_swe.
Print Assumptions C92_swe_run.
Print Assumptions C92_explicit_run.
Print Assumptions C92_tracer_run.
