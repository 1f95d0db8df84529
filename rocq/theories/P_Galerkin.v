(** C80: whole runs: what the assembled equations and the time integrators do
    together to the water volume, to a lake at rest and to tracers. *)
From Coq Require Import Reals List String Bool Arith Lia Lra FunctionalExtensionality.
From Verif Require Import Forms_Model Forms_Spec Forms_Proofs P_SWE P_Tracer2d
  RK_Model RK_Spec RK_Proofs RK_Proofs4 TimeInt_Model TimeInt_Spec TimeInt_Proofs P_RungeKutta P_TimeInt
  Galerkin_Model Galerkin_Proofs.
Import ListNotations.
Open Scope R_scope.

(* ------------------------------------------------------------------ *)
(** * Linear functionals and steps *)

Lemma theta_budget {D : Type} (l : (D -> R) -> R) mass Rn Ro dt theta (u u' : D -> R) :
  linear l -> theta_step mass Rn Ro dt theta u u' ->
  l (mass u') = l (mass u) + dt * (theta * l (Rn u') + (1 - theta) * l (Ro u)).
Proof.
  intros [La Ls] Hst.
  replace (mass u') with (fun x => mass u x + dt * (theta * Rn u' x + (1 - theta) * Ro u x)).
  - rewrite (La (mass u) (fun x => dt * (theta * Rn u' x + (1 - theta) * Ro u x))).
    rewrite (Ls dt (fun x => theta * Rn u' x + (1 - theta) * Ro u x)).
    rewrite (La (fun x => theta * Rn u' x) (fun x => (1 - theta) * Ro u x)).
    rewrite (Ls theta (Rn u')), (Ls (1 - theta) (Ro u)). ring.
  - apply functional_extensionality; intro x. rewrite <- (Hst x). ring.
Qed.

Section Galerkin.
Context {V F B Val Bd : Type}.
Local Notation sfield := (sfield V F B).
Local Notation vfield := (vfield V F B).
Notation KS := (@const_s V F B).
Notation ZV := (@zero_v V F B).

Lemma comb_v : forall n c (phi : nat -> sfield) p,
  s_v (comb n c phi) p = rsum n (fun i => c i * s_v (phi i) p).
Proof.
  intros n c phi p. induction n as [|n IH]; [reflexivity|].
  cbn [comb add_s scale_s s_v]. rewrite IH. unfold rsum; cbn. ring.
Qed.

(** Sum of the rows of a vector with the coefficients of the function 1. *)
Definition row_sum (n : nat) (c : nat -> R) (r : nat -> R) : R := rsum n (fun i => c i * r i).

Lemma row_sum_linear {D : Type} : forall n c (k : nat -> D),
  linear (fun r : D -> R => row_sum n c (fun i => r (k i))).
Proof.
  intros n c k. unfold row_sum. split; intros.
  - rewrite <- rsum_plus. apply rsum_ext. intros i _. ring.
  - rewrite <- rsum_scal. apply rsum_ext. intros i _. ring.
Qed.

(* ------------------------------------------------------------------ *)
(** * Shallow water *)

Variable W : @space V F B.
Variable M : mesh V F B.
(** the coefficients of the function 1 in the elevation space *)
Variable ones : nat -> R.
Hypothesis Hone : comb (n_eta W) ones (phi W) = KS 1.
Variable dh : (dof -> R) -> (dof -> R) -> V -> R.

(** Volume which flows in through the open boundaries and from the source per
    unit time, at the state [u] with the linearisation [w]. *)
Definition net_inflow (E : swe_env V F B) (u w : dof -> R) : R :=
  - ds (e_mesh E) (fun b =>
      match e_bnd E (m_marker (e_mesh E) b) with
      | Closed => 0
      | Open e => hu_flux_b E (uv_of W u) (eta_of W u) (uv_of W w) (eta_of W w) e b
      end)
  + match e_vsource E with Some s => dx (e_mesh E) s | None => 0 end.

Notation etas := (fun r : dof -> R => row_sum (n_eta W) ones (fun i => r (ETA i))).

(** The rows of the continuity equation, summed up as the function 1 is from
    the basis functions, give the flux through the boundary. *)
Theorem C80_rows_budget : forall E u w, e_u_jump E = true ->
  etas (swe_vector W E dh u w) = net_inflow E u w.
Proof.
  intros E u w Hj.
  transitivity (continuity_residual E (comb (n_eta W) ones (phi W)) (uv_of W u) (eta_of W u)
                  (uv_of W w) (eta_of W w) (dh u w)).
  - rewrite (lin_comb _ (lin_continuity E _ _ _ _ _)).
    unfold row_sum. apply rsum_ext. intros i Hi. cbn [swe_vector].
    apply Nat.ltb_lt in Hi. rewrite Hi. reflexivity.
  - rewrite Hone. rewrite C49_volume_budget by exact Hj. reflexivity.
Qed.

(** Elevation (with the wetting and drying displacement) integrated over the
    domain. *)
Definition content (disp : V -> R -> R) (u : dof -> R) : R :=
  dx M (fun p => s_v (eta_of W u) p + disp p (s_v (eta_of W u) p)).

Lemma mass_rows : forall disp u, etas (swe_mass W M disp u) = content disp u.
Proof.
  intros disp u. unfold content.
  transitivity (dx M (fun p => (s_v (eta_of W u) p + disp p (s_v (eta_of W u) p))
                               * s_v (comb (n_eta W) ones (phi W)) p)).
  - rewrite (lin_comb _ (lin_mass M (fun p => s_v (eta_of W u) p + disp p (s_v (eta_of W u) p)))).
    unfold row_sum. apply rsum_ext. intros i Hi. cbn [swe_mass].
    apply Nat.ltb_lt in Hi. rewrite Hi. f_equal. unfold dx.
    rewrite <- integral_plus. apply integral_ext. intros p _. ring.
  - rewrite Hone. apply integral_ext. intros p _. cbn [const_s s_v]. ring.
Qed.

Lemma content_linear : linear (content (fun _ _ => 0)).
Proof.
  split; intros; unfold content, eta_of, dx.
  - rewrite <- integral_plus. apply integral_ext. intros p _. rewrite !comb_v.
    rewrite !Rplus_0_r, <- rsum_plus. apply rsum_ext. intros i _. ring.
  - rewrite <- integral_scal. apply integral_ext. intros p _. rewrite !comb_v.
    rewrite !Rplus_0_r, <- rsum_scal. apply rsum_ext. intros i _. ring.
Qed.

(** ** The theta scheme *)

(** the equation for the values of the fields and the boundary data *)
Variable Env : (string -> option Val) -> (string -> option Val) -> Bd -> swe_env V F B.
Hypothesis Hmesh : forall f fo b, e_mesh (Env f fo b) = M.
Hypothesis Hjump : forall f fo b, e_u_jump (Env f fo b) = true.

Definition Res (u w : dof -> R) f fo b : dof -> R := swe_vector W (Env f fo b) dh u w.

Variable keys : list string.
Variable kind : string -> ckind.
Variable disp : V -> R -> R.
Variable solve : ((dof -> R) -> dof -> R) -> (dof -> R) -> dof -> R.
Variable dt : R.
Variable uf : option (@forcing Val Bd).
Variable theta : R.
Variable semi : bool.

Notation step := (cn_advance keys kind Res (swe_mass W M disp) solve dt uf theta semi).

(** the nonlinear system of a time step has a solution *)
Definition solvable (c : @coefs Val Bd) (u0 : dof -> R) : Prop :=
  exists u, theta_step (swe_mass W M disp)
    (fun v => Res v (if semi then u0 else v) (view kind c) (view kind c) (oth c))
    (fun v => Res v v (view_old kind c) (view_old kind c) (oth c)) dt theta u0 u.

(** Volume after one step: the volume before plus the weighted inflow at the
    new state (with the new boundary data) and at the old state (with the old
    fields), with any boundary conditions, sources and wetting and drying. *)
Theorem C80_theta_budget : forall t s,
  exact_solver solve -> solvable (force_co uf (t + dt) (tco s)) (tsol s) ->
  let c := force_co uf (t + dt) (tco s) in
  let new := tsol (step t s) in
  content disp new
  = content disp (tsol s)
    + dt * (theta * net_inflow (Env (view kind c) (view kind c) (oth c)) new
                      (if semi then tsol s else new)
            + (1 - theta) * net_inflow (Env (view_old kind c) (view_old kind c) (oth c))
                              (tsol s) (tsol s)).
Proof.
  intros t s Hs Hex c new.
  destruct (cn_advance_spec keys kind Res (swe_mass W M disp) solve dt uf theta semi t s Hs Hex)
    as [H _].
  fold new in H. clearbody new.
  pose proof (theta_budget etas _ _ _ _ _ _ _ (row_sum_linear _ _ ETA) H) as Q.
  cbv beta in Q. rewrite !mass_rows in Q. unfold Res in Q.
  rewrite !C80_rows_budget in Q by apply Hjump. exact Q.
Qed.

(** the closed basin *)
Definition closed_basin : Prop := forall f fo b,
  all_closed (Env f fo b) /\ e_vsource (Env f fo b) = None.

Lemma closed_no_inflow : closed_basin -> forall f fo b u w, net_inflow (Env f fo b) u w = 0.
Proof.
  intros Hc f fo b u w. destruct (Hc f fo b) as (Hcl & Hv). unfold net_inflow. rewrite Hv.
  rewrite (ds_zero (e_mesh (Env f fo b))); [ring|].
  intros e _. rewrite (Hcl (m_marker (e_mesh (Env f fo b)) e)). reflexivity.
Qed.

(** The volume of water over the bathymetry: total depth integrated. *)
Definition water_volume (alpha : option (V -> R)) (bath : V -> R) (u : dof -> R) : R :=
  dx M (fun p => wd_depth true alpha bath p (s_v (eta_of W u) p)).

Lemma water_content : forall alpha bath u,
  water_volume alpha bath u = dx M bath + content (wd_displacement alpha bath) u.
Proof.
  intros. unfold water_volume, content, dx. rewrite <- integral_plus. apply integral_ext.
  intros p _. cbn [wd_depth]. ring.
Qed.

(** A run of Crank-Nicolson steps in a closed basin keeps the volume of water,
    whatever the fields, their forcing, the start, the time step, theta, the
    linearisation and with and without wetting and drying. *)
Theorem C80_theta_volume : forall ts s,
  exact_solver solve -> closed_basin -> (forall c u, solvable c u) ->
  content disp (tsol (fold_left (fun s t => step t s) ts s)) = content disp (tsol s) /\
  (forall alpha bath, disp = wd_displacement alpha bath ->
   water_volume alpha bath (tsol (fold_left (fun s t => step t s) ts s))
   = water_volume alpha bath (tsol s)).
Proof.
  intros ts s Hs Hc Hex.
  assert (H : content disp (tsol (fold_left (fun s t => step t s) ts s)) = content disp (tsol s)).
  { revert s. induction ts as [|t ts IH]; intro s; cbn [fold_left]; [reflexivity|].
    rewrite IH. rewrite (C80_theta_budget t s Hs) by apply Hex.
    rewrite !closed_no_inflow by exact Hc. ring. }
  split; [exact H|]. intros alpha bath Hd. rewrite !water_content. rewrite <- Hd, H. reflexivity.
Qed.

(** ** Explicit Runge-Kutta steps *)
Section Explicit.
Context {En : Type}.
Variable EnvR : En -> swe_env V F B.
Hypothesis HmeshR : forall e, e_mesh (EnvR e) = M.
Hypothesis HjumpR : forall e, e_u_jump (EnvR e) = true.
(** the tendency solves the mass matrix system exactly *)
Variable Fx : En -> (dof -> R) -> dof -> R.
Hypothesis Hten : forall e u x,
  swe_mass W M (fun _ _ => 0) (Fx e u) x = swe_vector W (EnvR e) dh u u x.

Lemma tendency_content : forall e u, content (fun _ _ => 0) (Fx e u) = net_inflow (EnvR e) u u.
Proof.
  intros e u. rewrite <- mass_rows. rewrite <- C80_rows_budget by apply HjumpR.
  unfold row_sum. apply rsum_ext. intros i _. rewrite Hten. reflexivity.
Qed.

(** One step adds the inflow at each stage, weighted by the tableau. *)
Theorem C80_explicit_budget : forall (T : tableau) dte ufe t (s : @st dof En), dte <> 0 ->
  exists k : nat -> dof -> R,
    let u := if ini s then sol_old s else sol s in
    let e i := forced ufe (abscissae t dte (tc T) (S i)) (env s) in
    let y i := along u dte i (ta T i) k in
    (forall i, (i < ns T)%nat -> k i = Fx (e i) (y i)) /\
    content (fun _ _ => 0) (sol (erk_advance T Fx true dte ufe t s))
    = content (fun _ _ => 0) u
      + dte * Sum (ns T) (fun i => tb T i * net_inflow (EnvR (e i)) (y i) (y i)).
Proof.
  intros T dte ufe t s Hd.
  destruct (C23_butcher_form_step T Fx dte ufe t s Hd) as [(k & Hk & Hu) _].
  exists k. split; [exact Hk|]. rewrite Hu.
  rewrite (lin_along _ content_linear). rewrite Sum_rsum. f_equal. f_equal.
  apply rsum_ext. intros i Hi. rewrite (Hk i Hi) at 1. rewrite tendency_content. reflexivity.
Qed.

Definition closed_basin_x : Prop := forall e, all_closed (EnvR e) /\ e_vsource (EnvR e) = None.

Lemma closed_tendency : closed_basin_x -> forall e u, content (fun _ _ => 0) (Fx e u) = 0.
Proof.
  intros Hc e u. rewrite tendency_content. destruct (Hc e) as (Hcl & Hv).
  unfold net_inflow. rewrite Hv. rewrite (ds_zero (e_mesh (EnvR e))); [ring|].
  intros b _. rewrite (Hcl (m_marker (e_mesh (EnvR e)) b)). reflexivity.
Qed.

(** Runs of explicit steps in a closed basin keep the volume. *)
Theorem C80_explicit_volume : forall (T : tableau) dte ufe ts (s : @st dof En),
  dte <> 0 -> closed_basin_x -> (ini s = true -> sol_old s = sol s) ->
  content (fun _ _ => 0) (sol (fold_left (fun s t => erk_advance T Fx true dte ufe t s) ts s))
  = content (fun _ _ => 0) (sol s).
Proof.
  intros T dte ufe ts s Hd Hc. revert s.
  induction ts as [|t ts IH]; intros s Hi; cbn [fold_left]; [reflexivity|].
  destruct (erk_advance_spec T Fx dte ufe t s Hd) as (_ & _ & Ho & _).
  rewrite IH by (intros _; exact Ho).
  destruct (C27_explicit_invariant (content (fun _ _ => 0)) T (fun _ _ => 0) (fun _ _ => 0) Fx dte ufe t s
              content_linear (closed_tendency Hc) Hd) as [Q _].
  rewrite Q. destruct (ini s); [rewrite Hi by reflexivity|]; reflexivity.
Qed.

(** The same for the strong stability preserving (Shu-Osher) form. *)
Theorem C80_ssp_volume : forall (T : tableau) alpha beta dte ufe ts (s : @st dof En),
  dte <> 0 -> closed_basin_x ->
  (forall i, (i < ns T)%nat -> Sum (S i) (alpha (S i)) = 1) ->
  (forall i j, (i < ns T)%nat -> (j < i)%nat -> beta (S i) j = 0) ->
  content (fun _ _ => 0) (sol (fold_left (fun s t => so_advance (ns T) alpha beta (tc T) Fx true dte ufe t s) ts s))
  = content (fun _ _ => 0) (sol s).
Proof.
  intros T alpha beta dte ufe ts s Hd Hc Ha Hb. revert s.
  induction ts as [|t ts IH]; intros s; cbn [fold_left]; [reflexivity|].
  rewrite IH.
  destruct (C27_explicit_invariant (content (fun _ _ => 0)) T alpha beta Fx dte ufe t s
              content_linear (closed_tendency Hc) Hd) as [_ Q].
  apply Q; assumption.
Qed.

(** Diagonally implicit steps: the tendency form without the displacement, the
    solution form with it. *)
Theorem C80_tendency_form_volume : forall (T : tableau) G solvek dte ufe ts (s : @st dof En),
  closed_basin_x -> (0 < ns T)%nat -> exact_solver solvek ->
  (forall e u w x, swe_mass W M (fun _ _ => 0) (G e u w) x = swe_vector W (EnvR e) dh u w x) ->
  (forall i e (base w : dof -> R), (i < ns T)%nat ->
     exists k, k = G e (fun x => base x + dte * ta T i i * k x) w) ->
  content (fun _ _ => 0) (sol (fold_left (fun s t => dirk_advance T G solvek semi dte ufe t s) ts s))
  = content (fun _ _ => 0) (sol s).
Proof.
  intros T G solvek dte ufe ts s Hc Hn Hs HG Hex. revert s.
  induction ts as [|t ts IH]; intros s; cbn [fold_left]; [reflexivity|]. rewrite IH.
  apply (C27_implicit_invariant (content (fun _ _ => 0)) T G solvek semi dte ufe t s); try assumption.
  - apply content_linear.
  - intros e v w. rewrite <- mass_rows. destruct (Hc e) as (Hcl & Hv).
    transitivity (etas (swe_vector W (EnvR e) dh v w)).
    + unfold row_sum. apply rsum_ext. intros i _. rewrite HG. reflexivity.
    + rewrite C80_rows_budget by apply HjumpR. unfold net_inflow. rewrite Hv.
      rewrite (ds_zero (e_mesh (EnvR e))); [ring|].
      intros b _. rewrite (Hcl (m_marker (e_mesh (EnvR e)) b)). reflexivity.
Qed.

Theorem C80_solution_form_volume : forall (T : tableau) solvek dte ufe ts (s : @st dof En),
  closed_basin_x -> (0 < ns T)%nat -> exact_solver solvek -> dte <> 0 ->
  (forall i, (i < ns T)%nat -> ta T i i <> 0) ->
  let G := fun e u w => swe_vector W (EnvR e) dh u w in
  (forall i e (base u : dof -> R), (i < ns T)%nat ->
     exists y, forall x, swe_mass W M disp y x = base x + dte * ta T i i * G e y (if semi then u else y) x) ->
  content disp (sol (fold_left (fun s t => uform_advance T G solvek semi dte ufe (swe_mass W M disp) t s) ts s))
  = content disp (sol s).
Proof.
  intros T solvek dte ufe ts s Hc Hn Hs Hd Ha G Hex. revert s.
  induction ts as [|t ts IH]; intros s; cbn [fold_left]; [reflexivity|]. rewrite IH.
  pose proof (C27_solution_form_invariant etas T G solvek semi dte ufe (swe_mass W M disp) t s) as Q.
  cbv beta in Q. rewrite !mass_rows in Q. apply Q; try assumption.
  - apply (row_sum_linear _ _ ETA).
  - intros e v w. destruct (Hc e) as (Hcl & Hv). unfold G.
    rewrite C80_rows_budget by apply HjumpR. unfold net_inflow. rewrite Hv.
    rewrite (ds_zero (e_mesh (EnvR e))); [ring|].
    intros b _. rewrite (Hcl (m_marker (e_mesh (EnvR e)) b)). reflexivity.
Qed.
End Explicit.

(* ------------------------------------------------------------------ *)
(** * A lake at rest *)

(** at rest at level [h] *)
Definition at_rest (h : R) (u : dof -> R) : Prop := eta_of W u = KS h /\ uv_of W u = ZV.

Lemma rest_rows : forall E h u, e_mesh E = M ->
  at_rest h u -> unforced E -> (forall k, at_rest_bnd h (e_bnd E k)) ->
  (forall j, (j < n_uv W)%nat -> gauss_v M (psi W j)) ->
  (forall p, dh u u p = 0) ->
  forall x, swe_vector W E dh u u x = 0.
Proof.
  intros E h u Hm (He & Hu) Hf Hb Hg Hdh x. destruct x as [j|i]; cbn [swe_vector]; rewrite He, Hu.
  - destruct (Nat.ltb j (n_uv W)) eqn:Ej; [|reflexivity]. apply Nat.ltb_lt in Ej.
    destruct (momentum_residual E (psi W j) ZV (KS h) ZV (KS h)) as [r|] eqn:Er; [|reflexivity].
    apply (C49_lake_at_rest_momentum E h (psi W j) r Hf Hb); [|exact Er].
    rewrite Hm. apply Hg. exact Ej.
  - destruct (Nat.ltb i (n_eta W)); [|reflexivity].
    replace (dh u u) with (fun _ : V => 0) by (apply functional_extensionality; intro p; symmetry; apply Hdh).
    apply (C49_lake_at_rest_continuity E h (phi W i) Hf Hb).
Qed.

(** A run of Crank-Nicolson steps from a lake at rest leaves every degree of
    freedom as it is, provided each step has one solution only. *)
Theorem C80_lake_stays : forall h ts s,
  exact_solver solve -> at_rest h (tsol s) ->
  (forall f fo b, unforced (Env f fo b) /\ forall k, at_rest_bnd h (e_bnd (Env f fo b) k)) ->
  (forall j, (j < n_uv W)%nat -> gauss_v M (psi W j)) ->
  (forall p, dh (tsol s) (tsol s) p = 0) ->
  (forall c u u',
     theta_step (swe_mass W M disp)
       (fun v => Res v (if semi then tsol s else v) (view kind c) (view kind c) (oth c))
       (fun v => Res v v (view_old kind c) (view_old kind c) (oth c)) dt theta (tsol s) u ->
     theta_step (swe_mass W M disp)
       (fun v => Res v (if semi then tsol s else v) (view kind c) (view kind c) (oth c))
       (fun v => Res v v (view_old kind c) (view_old kind c) (oth c)) dt theta (tsol s) u' ->
     u = u') ->
  tsol (fold_left (fun s t => step t s) ts s) = tsol s.
Proof.
  intros h ts s Hs Hr Hf Hg Hdh Hu.
  assert (H : forall s', tsol s' = tsol s ->
    tsol (fold_left (fun s t => step t s) ts s') = tsol s); [|apply H; reflexivity].
  induction ts as [|t ts IH]; intros s' E; cbn [fold_left]; [exact E|].
  apply IH. rewrite <- E.
  assert (R0 : forall f fo b, Res (tsol s') (tsol s') f fo b = fun _ => 0).
  { intros f fo b. apply functional_extensionality. intro x. unfold Res. rewrite E.
    destruct (Hf f fo b) as (Hf1 & Hf2).
    apply (rest_rows (Env f fo b) h (tsol s) (Hmesh f fo b) Hr Hf1 Hf2 Hg Hdh). }
  apply C27_theta_steady; [exact Hs| | |].
  - replace (if semi then tsol s' else tsol s') with (tsol s') by (destruct semi; reflexivity).
    apply R0.
  - apply R0.
  - rewrite E. apply Hu.
Qed.

(** The same for explicit steps (the mass matrix is invertible). *)
Theorem C80_lake_stays_explicit : forall {En : Type} (EnvR : En -> swe_env V F B) Fx (T : tableau) dte ufe h ts
    (s : @st dof En),
  (forall e, e_mesh (EnvR e) = M) ->
  (forall e u x, swe_mass W M (fun _ _ => 0) (Fx e u) x = swe_vector W (EnvR e) dh u u x) ->
  (forall v, (forall x, swe_mass W M (fun _ _ => 0) v x = 0) -> v = fun _ => 0) ->
  dte <> 0 -> at_rest h (sol s) -> (ini s = true -> sol_old s = sol s) ->
  (forall e, unforced (EnvR e) /\ forall k, at_rest_bnd h (e_bnd (EnvR e) k)) ->
  (forall j, (j < n_uv W)%nat -> gauss_v M (psi W j)) ->
  (forall p, dh (sol s) (sol s) p = 0) ->
  sol (fold_left (fun s t => erk_advance T Fx true dte ufe t s) ts s) = sol s.
Proof.
  intros En EnvR Fx T dte ufe h ts s Hm Hten Hinv Hd Hr Hi Hf Hg Hdh.
  assert (F0 : forall e, Fx e (sol s) = fun _ => 0).
  { intro e. apply Hinv. intro x. rewrite Hten. destruct (Hf e) as (H1 & H2).
    apply (rest_rows (EnvR e) h (sol s) (Hm e) Hr H1 H2 Hg Hdh). }
  assert (H : forall s', sol s' = sol s -> (ini s' = true -> sol_old s' = sol s') ->
    sol (fold_left (fun s t => erk_advance T Fx true dte ufe t s) ts s') = sol s).
  2:{ apply H; [reflexivity|exact Hi]. }
  clear Hi. induction ts as [|t ts IH]; intros s' E Hi; cbn [fold_left]; [exact E|].
  destruct (erk_advance_spec T Fx dte ufe t s' Hd) as (_ & _ & Ho & _).
  apply IH; [|intros _; exact Ho].
  assert (E2 : (if ini s' then sol_old s' else sol s') = sol s).
  { destruct (ini s'); [rewrite Hi by reflexivity|]; exact E. }
  destruct (C27_explicit_steady T (fun _ _ => 0) (fun _ _ => 0) Fx dte ufe t s' Hd) as [Q _].
  rewrite Q; [exact E2|]. rewrite E2. exact F0.
Qed.

End Galerkin.

(* ------------------------------------------------------------------ *)
(** * Tracers *)

Section Tracer.
Context {V F B Val Bd : Type}.
Local Notation sfield := (sfield V F B).
Local Notation vfield := (vfield V F B).
Notation KS := (@const_s V F B).

(** What the tracer equation is given: mesh, depth, boundary conditions,
    velocity, elevation. *)
Record tcase := mk_tcase
  { tc_E : swe_env V F B; tc_T : tracer_env V F B; tc_uv : vfield; tc_elev : sfield;
    tc_gext : B -> R * R }.

Variable W : @tspace V F B.
Variable M : mesh V F B.
Variable ones : nat -> R.
Hypothesis Hone : comb (n_c W) ones (chi W) = KS 1.

Definition tvec (conservative : bool) (k : tcase) (c : nat -> R) : nat -> R :=
  tracer_vector conservative W (tc_E k) (tc_T k) (tc_uv k) (tc_elev k) (tc_gext k) c.

(** Tracer mass (of the depth integrated tracer) coming in per unit time. *)
Definition tracer_inflow (k : tcase) (c : nat -> R) : R :=
  let m := e_mesh (tc_E k) in
  let q := tracer_of W c in
  - ds m (outflux (tc_E k) (tc_T k) q (tc_uv k) (tc_elev k))
  + match t_mu (tc_T k) with
    | Some mu => ds m (diff_influx (tc_E k) (tc_T k) mu q (tc_uv k) (tc_elev k) (tc_gext k))
    | None => 0
    end
  + match t_source (tc_T k) with
    | Some src => dx m (fun p => hv (tc_E k) (tc_elev k) p * src p)
    | None => 0
    end.

Theorem C80_tracer_rows_budget : forall k c,
  row_sum (n_c W) ones (tvec true k c) = tracer_inflow k c.
Proof.
  intros k c. set (E := tc_E k). set (T := tc_T k). set (q := tracer_of W c).
  set (uv := tc_uv k). set (el := tc_elev k). set (gx := tc_gext k).
  transitivity (cons_advection E T (comb (n_c W) ones (chi W)) q uv el
                + tracer_diffusion E T (comb (n_c W) ones (chi W)) q uv el gx
                + cons_source E T (comb (n_c W) ones (chi W)) el).
  - rewrite (lin_comb _ (lin_plus _ _ (lin_plus _ _ (lin_cons_advection E T q uv el) (lin_diffusion E T q uv el gx))
               (lin_cons_source E T el))).
    unfold row_sum. apply rsum_ext. intros i Hi. unfold tvec, tracer_vector.
    apply Nat.ltb_lt in Hi. rewrite Hi. reflexivity.
  - rewrite Hone. rewrite C50_conservative_budget. unfold tracer_inflow. cbv zeta. fold E T q uv el gx.
    f_equal; [f_equal|].
    + destruct (t_mu T) as [mu|] eqn:Em; [apply (C50_diffusion_budget E T mu); exact Em|].
      unfold tracer_diffusion. rewrite Em. reflexivity.
    + unfold cons_source. destruct (t_source T) as [src|]; [|reflexivity]. rewrite Ropp_involutive.
      apply integral_ext. intros p _. cbn [const_s s_v]. ring.
Qed.

(** the tracer integrated over the domain *)
Definition amount (c : nat -> R) : R := dx M (s_v (tracer_of W c)).

Lemma amount_linear : linear amount.
Proof.
  split; intros; unfold amount, tracer_of, dx.
  - rewrite <- integral_plus. apply integral_ext. intros p _. rewrite !comb_v.
    rewrite <- rsum_plus. apply rsum_ext. intros i _. ring.
  - rewrite <- integral_scal. apply integral_ext. intros p _. rewrite !comb_v.
    rewrite <- rsum_scal. apply rsum_ext. intros i _. ring.
Qed.

Lemma tracer_mass_rows : forall c, row_sum (n_c W) ones (tracer_mass W M c) = amount c.
Proof.
  intros c. unfold amount.
  transitivity (dx M (fun p => s_v (tracer_of W c) p * s_v (comb (n_c W) ones (chi W)) p)).
  - rewrite (lin_comb _ (lin_mass M (s_v (tracer_of W c)))).
    unfold row_sum. apply rsum_ext. intros i Hi. unfold tracer_mass.
    apply Nat.ltb_lt in Hi. rewrite Hi. reflexivity.
  - rewrite Hone. apply integral_ext. intros p _. cbn [const_s s_v]. ring.
Qed.

(** impermeable, without source *)
Definition sealed (k : tcase) : Prop :=
  (forall b, t_bnd (tc_T k) b = None) /\ t_source (tc_T k) = None /\
  (forall b, In b (m_bnds (e_mesh (tc_E k))) -> unb (e_mesh (tc_E k)) (tc_uv k) b = 0).

Lemma sealed_no_inflow : forall k c, sealed k -> tracer_inflow k c = 0.
Proof.
  intros k c (Hb & Hs & Hu). unfold tracer_inflow. cbv zeta. rewrite Hs.
  rewrite (ds_zero (e_mesh (tc_E k)) (outflux _ _ _ _ _)).
  - destruct (t_mu (tc_T k)) as [mu|]; [|ring].
    rewrite (ds_zero (e_mesh (tc_E k))); [ring|]. intros b _. unfold diff_influx. rewrite Hb. reflexivity.
  - intros b Hin. unfold outflux. rewrite Hb, (Hu b Hin). ring.
Qed.

(** a case in which the constant [a] has no tendency *)
Definition keeps_constant (a : R) (k : tcase) : Prop :=
  e_mesh (tc_E k) = M /\ t_dg (tc_T k) = true /\ t_source (tc_T k) = None /\
  (forall i, (i < n_c W)%nat -> gauss_sv M (chi W i) (tc_uv k)) /\
  (forall b, In b (m_bnds M) -> neutral_bnd (tc_E k) (tc_T k) a (tc_uv k) (tc_elev k) b) /\
  (t_mu (tc_T k) <> None ->
   forall m tb, t_bnd (tc_T k) m = Some tb -> tb_diff_flux tb = None /\ tb_value tb = None).

Lemma constant_rows : forall a k c, keeps_constant a k -> tracer_of W c = KS a ->
  tvec false k c = fun _ => 0.
Proof.
  intros a k c (Hm & Hd & Hs & Hg & Hb & Hf) Hc. apply functional_extensionality. intro i.
  unfold tvec, tracer_vector. destruct (Nat.ltb i (n_c W)) eqn:Ei; [|reflexivity].
  apply Nat.ltb_lt in Ei. rewrite Hc.
  rewrite (C50_constants (tc_E k) (tc_T k) a).
  - unfold tracer_source. rewrite Hs.
    assert (tracer_diffusion (tc_E k) (tc_T k) (chi W i) (KS a) (tc_uv k) (tc_elev k) (tc_gext k) = 0) as ->; [|ring].
    destruct (t_mu (tc_T k)) as [mu|] eqn:Em.
    + apply C50_diffusion_constants. apply Hf. discriminate.
    + unfold tracer_diffusion. rewrite Em. reflexivity.
  - rewrite Hm. apply Hg. exact Ei.
  - exact Hd.
  - rewrite Hm. exact Hb.
Qed.

(** ** Crank-Nicolson *)
Variable case : (string -> option Val) -> (string -> option Val) -> Bd -> tcase.
Variable conservative : bool.
Definition TRes (c _ : nat -> R) f fo b : nat -> R := tvec conservative (case f fo b) c.
Variable keys : list string.
Variable kind : string -> ckind.
Variable solve : ((nat -> R) -> nat -> R) -> (nat -> R) -> nat -> R.
Variable dt : R.
Variable uf : option (@forcing Val Bd).
Variable theta : R.
Variable semi : bool.
Notation step := (cn_advance keys kind TRes (tracer_mass W M) solve dt uf theta semi).

Definition tsolvable (co : @coefs Val Bd) (c0 : nat -> R) : Prop :=
  exists c, theta_step (tracer_mass W M)
    (fun v => TRes v (if semi then c0 else v) (view kind co) (view kind co) (oth co))
    (fun v => TRes v v (view_old kind co) (view_old kind co) (oth co)) dt theta c0 c.

Theorem C80_tracer_budget : forall t s, conservative = true ->
  exact_solver solve -> tsolvable (force_co uf (t + dt) (tco s)) (tsol s) ->
  let co := force_co uf (t + dt) (tco s) in
  let new := tsol (step t s) in
  amount new = amount (tsol s)
    + dt * (theta * tracer_inflow (case (view kind co) (view kind co) (oth co)) new
            + (1 - theta) * tracer_inflow (case (view_old kind co) (view_old kind co) (oth co)) (tsol s)).
Proof.
  intros t s Hcf Hs Hex co new.
  destruct (cn_advance_spec keys kind TRes (tracer_mass W M) solve dt uf theta semi t s Hs Hex) as [H _].
  fold new in H. clearbody new.
  pose proof (theta_budget (row_sum (n_c W) ones) _ _ _ _ _ _ _ (row_sum_linear _ _ (fun i : nat => i)) H) as Q.
  cbv beta in Q. rewrite !tracer_mass_rows in Q. unfold TRes in Q. rewrite Hcf in Q.
  rewrite !C80_tracer_rows_budget in Q. exact Q.
Qed.

Theorem C80_tracer_mass : forall ts s, conservative = true ->
  exact_solver solve -> (forall co c, tsolvable co c) -> (forall f fo b, sealed (case f fo b)) ->
  amount (tsol (fold_left (fun s t => step t s) ts s)) = amount (tsol s).
Proof.
  intros ts s Hcf Hs Hex Hse. revert s.
  induction ts as [|t ts IH]; intro s; cbn [fold_left]; [reflexivity|].
  rewrite IH. rewrite (C80_tracer_budget t s Hcf Hs) by apply Hex.
  rewrite !sealed_no_inflow by apply Hse. ring.
Qed.

(** A constant tracer stays constant in the non-conservative form. *)
Theorem C80_tracer_constant : forall a ts s, conservative = false ->
  exact_solver solve -> tracer_of W (tsol s) = KS a ->
  (forall f fo b, keeps_constant a (case f fo b)) ->
  (forall co c c',
     theta_step (tracer_mass W M)
       (fun v => TRes v (if semi then tsol s else v) (view kind co) (view kind co) (oth co))
       (fun v => TRes v v (view_old kind co) (view_old kind co) (oth co)) dt theta (tsol s) c ->
     theta_step (tracer_mass W M)
       (fun v => TRes v (if semi then tsol s else v) (view kind co) (view kind co) (oth co))
       (fun v => TRes v v (view_old kind co) (view_old kind co) (oth co)) dt theta (tsol s) c' ->
     c = c') ->
  tsol (fold_left (fun s t => step t s) ts s) = tsol s.
Proof.
  intros a ts s Hcf Hs Hc Hk Hu.
  assert (H : forall s', tsol s' = tsol s -> tsol (fold_left (fun s t => step t s) ts s') = tsol s);
    [|apply H; reflexivity].
  induction ts as [|t ts IH]; intros s' E; cbn [fold_left]; [exact E|].
  apply IH. rewrite <- E.
  assert (R0 : forall w f fo b, TRes (tsol s') w f fo b = fun _ => 0).
  { intros w f fo b. unfold TRes. rewrite Hcf, E. apply (constant_rows a); [apply Hk|exact Hc]. }
  apply C27_theta_steady; [exact Hs|apply R0|apply R0|]. rewrite E. apply Hu.
Qed.

(** ** Explicit steps *)
Theorem C80_tracer_explicit : forall {En : Type} (caseR : En -> tcase) Fx (T : tableau) dte ufe ts (s : @st nat En),
  (forall e c i, tracer_mass W M (Fx e c) i = tvec conservative (caseR e) c i) ->
  dte <> 0 -> (ini s = true -> sol_old s = sol s) ->
  (conservative = true -> (forall e, sealed (caseR e)) ->
   amount (sol (fold_left (fun s t => erk_advance T Fx true dte ufe t s) ts s)) = amount (sol s)) /\
  (forall a, conservative = false -> tracer_of W (sol s) = KS a ->
   (forall e, keeps_constant a (caseR e)) ->
   (forall v, (forall i, tracer_mass W M v i = 0) -> v = fun _ => 0) ->
   sol (fold_left (fun s t => erk_advance T Fx true dte ufe t s) ts s) = sol s).
Proof.
  intros En caseR Fx T dte ufe ts s HF Hd Hi. split.
  - intros Hcf Hse.
    assert (H0 : forall e c, amount (Fx e c) = 0).
    { intros e c. rewrite <- tracer_mass_rows.
      transitivity (row_sum (n_c W) ones (tvec true (caseR e) c)).
      - unfold row_sum. apply rsum_ext. intros i _. rewrite HF, Hcf. reflexivity.
      - rewrite C80_tracer_rows_budget. apply sealed_no_inflow, Hse. }
    revert s Hi. induction ts as [|t ts IH]; intros s Hi; cbn [fold_left]; [reflexivity|].
    destruct (erk_advance_spec T Fx dte ufe t s Hd) as (_ & _ & Ho & _).
    rewrite IH by (intros _; exact Ho).
    destruct (C27_explicit_invariant amount T (fun _ _ => 0) (fun _ _ => 0) Fx dte ufe t s
                amount_linear H0 Hd) as [Q _].
    rewrite Q. destruct (ini s); [rewrite Hi by reflexivity|]; reflexivity.
  - intros a Hcf Hc Hk Hinv.
    assert (F0 : forall e, Fx e (sol s) = fun _ => 0).
    { intro e. apply Hinv. intro x. rewrite HF, Hcf. rewrite (constant_rows a); [reflexivity|apply Hk|exact Hc]. }
    assert (H : forall s', sol s' = sol s -> (ini s' = true -> sol_old s' = sol s') ->
      sol (fold_left (fun s t => erk_advance T Fx true dte ufe t s) ts s') = sol s).
    2:{ apply H; [reflexivity|exact Hi]. }
    clear Hi. induction ts as [|t ts IH]; intros s' E Hi; cbn [fold_left]; [exact E|].
    destruct (erk_advance_spec T Fx dte ufe t s' Hd) as (_ & _ & Ho & _).
    apply IH; [|intros _; exact Ho].
    assert (E2 : (if ini s' then sol_old s' else sol s') = sol s).
    { destruct (ini s'); [rewrite Hi by reflexivity|]; exact E. }
    destruct (C27_explicit_steady T (fun _ _ => 0) (fun _ _ => 0) Fx dte ufe t s' Hd) as [Q _].
    rewrite Q; [exact E2|]. rewrite E2. exact F0.
Qed.

End Tracer.

(* ------------------------------------------------------------------ *)
(** * Two cells *)
From Verif Require Import Forms_Examples P_Tracer2d_Examples.

Definition unit_of (i : nat) : nat -> R := fun c => if Nat.eqb c i then 1 else 0.
(** piecewise constants in the cells 0 and 1: two elevation values, two values
    of each velocity component *)
Definition cells2 : space :=
  mk_space 2 (fun i => p0 (fun c => match c with O => unit_of 0 i | _ => unit_of 1 i end))
    4 (fun j => mk_vf (p0 (fun c => match c with O => unit_of 0 j | _ => unit_of 1 j end))
                      (p0 (fun c => match c with O => unit_of 2 j | _ => unit_of 3 j end))).

Lemma cells2_one : comb (n_eta cells2) (fun _ => 1) (phi cells2) = const_s 1.
Proof.
  cbn [cells2 n_eta comb phi]. unfold add_s, scale_s, const_s, p0, affine, scal2, add2, unit_of.
  cbn [s_v s_gv s_f s_gf s_b s_gb fst snd Nat.eqb].
  f_equal; repeat (apply functional_extensionality; intro); try (f_equal; lra).
  all: try (destruct x0; cbn [fst snd]; f_equal; lra).
  all: try (destruct x; lra).
  all: destruct (fst (fst (edge x))); lra.
Qed.

Lemma cells2_mass : forall u x, swe_mass cells2 two_cells (fun _ _ => 0) u x = u x.
Proof.
  intros u x. destruct x as [j|i]; cbn [swe_mass cells2 n_eta n_uv].
  - destruct j as [|[|[|[|j]]]]; cbn [Nat.ltb Nat.leb]; [| | | |reflexivity];
    unfold dx, integral, vv, dot2, uv_of, unit_of; cbn -[Rplus Rmult Rminus Rdiv Ropp IZR]; lra.
  - destruct i as [|[|i]]; cbn [Nat.ltb Nat.leb]; [| |reflexivity];
    unfold dx, integral, eta_of, unit_of; cbn -[Rplus Rmult Rminus Rdiv Ropp IZR]; lra.
Qed.

(** water moving in cell 0 only *)
Definition moving (x : dof) : R := match x with UV 0 => 1 | ETA 0 => 2 | ETA 1 => 2 | _ => 0 end.

Example C80_example : forall solve uf dt ts (s : @tst dof unit unit),
  exact_solver solve ->
  let Env := fun (f fo : string -> option unit) (b : unit) => basin in
  let dh := fun _ _ _ => 0 in
  let step := cn_advance [] (fun _ => KExpr) (Res cells2 dh Env)
                (swe_mass cells2 two_cells (fun _ _ => 0)) solve dt uf 0 true in
  content cells2 two_cells (fun _ _ => 0) (tsol (fold_left (fun s t => step t s) ts s))
  = content cells2 two_cells (fun _ _ => 0) (tsol s) /\
  (tsol s = (fun x => match x with ETA i => if Nat.ltb i 2 then 3 else 0 | _ => 0 end) ->
   tsol (fold_left (fun s t => step t s) ts s) = tsol s) /\
  (swe_vector cells2 basin dh moving moving (ETA 0) = -6 /\
   swe_vector cells2 basin dh moving moving (ETA 1) = 6).
Proof.
  intros solve uf dt ts s Hs Env dh step. split; [|split; [|split]].
  - apply (C80_theta_volume cells2 two_cells (fun _ => 1) cells2_one dh Env); try assumption.
    + reflexivity.
    + intros f fo b. split; [intro k; reflexivity|reflexivity].
    + intros c u. exists (fun x => u x + dt * Res cells2 dh Env u u (view_old (fun _ => KExpr) c)
                            (view_old (fun _ => KExpr) c) (oth c) x).
      intro x. rewrite !cells2_mass. ring.
  - intro Es. apply (C80_lake_stays cells2 two_cells dh Env) with (h := 3); try assumption.
    + reflexivity.
    + rewrite Es. split.
      * unfold eta_of. cbn [cells2 n_eta comb phi Nat.ltb Nat.leb]. unfold add_s, scale_s, const_s, p0, affine, scal2, add2, unit_of.
        cbn [s_v s_gv s_f s_gf s_b s_gb fst snd Nat.eqb].
        f_equal; repeat (apply functional_extensionality; intro); try (f_equal; lra).
        all: try (destruct x0; cbn [fst snd]; f_equal; lra).
        all: try (destruct x; lra).
        all: destruct (fst (fst (edge x))); lra.
      * unfold uv_of, zero_v, const_v. cbn [cells2 n_uv comb psi v_x v_y].
        unfold add_s, scale_s, const_s, p0, affine, scal2, add2, unit_of.
        cbn [s_v s_gv s_f s_gf s_b s_gb fst snd Nat.eqb].
        f_equal; f_equal; repeat (apply functional_extensionality; intro); try (f_equal; lra); try lra;
        destruct x0; cbn [fst snd]; f_equal; lra.
    + intros f fo b. unfold Env. split; [|intro k; exact I].
      unfold unforced. repeat split; intros; discriminate.
    + intros j _. apply affine_gauss.
    + reflexivity.
    + intros c u u' H H'. apply functional_extensionality. intro x.
      specialize (H x). specialize (H' x). rewrite !cells2_mass in H, H'. lra.
  - cbn [swe_vector cells2 n_eta Nat.ltb Nat.leb].
    unfold continuity_residual, hu_div, continuity_source, basin, env_of, dx, dS, ds, integral, uv_of, eta_of, moving, unit_of, jump_n, normal, avg, hf, hv.
    cbn -[Rplus Rmult Rminus Rdiv Ropp Rinv IZR sqrt].
    unfold add2, scal2, dot2, avg_v, vf, vv, jump_n, normal, edge, affine, avg, hf, hv. cbn -[Rplus Rmult Rminus Rdiv Ropp Rinv IZR sqrt].
    replace 0.5 with (1/2) by lra. field_simplify. lra.
  - cbn [swe_vector cells2 n_eta Nat.ltb Nat.leb].
    unfold continuity_residual, hu_div, continuity_source, basin, env_of, dx, dS, ds, integral, uv_of, eta_of, moving, unit_of, jump_n, normal, avg, hf, hv.
    cbn -[Rplus Rmult Rminus Rdiv Ropp Rinv IZR sqrt].
    unfold add2, scal2, dot2, avg_v, vf, vv, jump_n, normal, edge, affine, avg, hf, hv. cbn -[Rplus Rmult Rminus Rdiv Ropp Rinv IZR sqrt].
    replace 0.5 with (1/2) by lra. field_simplify. lra.
Qed.

(** the tracer of the two cells, in the flow of the examples of C50 *)
Definition tcells2 : tspace := mk_tspace 2 (phi cells2).

Lemma tcells2_mass : forall c i, tracer_mass tcells2 two_cells c i = c i.
Proof.
  intros c i. unfold tracer_mass. destruct i as [|[|i]]; cbn [tcells2 n_c Nat.ltb Nat.leb]; [| |reflexivity];
  unfold dx, integral, tracer_of, unit_of; cbn -[Rplus Rmult Rminus Rdiv Ropp IZR]; lra.
Qed.

Definition flow2 : tcase := mk_tcase basin closed_tr through (const_s 0) (fun _ => (0, 0)).

Example C80_tracer_example : forall solve uf dt ts (s : @tst nat unit unit) (conservative : bool),
  exact_solver solve ->
  let case := fun (f fo : string -> option unit) (b : unit) => flow2 in
  let step := cn_advance [] (fun _ => KExpr) (TRes tcells2 case conservative)
                (tracer_mass tcells2 two_cells) solve dt uf 0 true in
  (conservative = true ->
   amount tcells2 two_cells (tsol (fold_left (fun s t => step t s) ts s)) = amount tcells2 two_cells (tsol s)) /\
  (conservative = false -> tsol s = (fun i => if Nat.ltb i 2 then 7 else 0) ->
   tsol (fold_left (fun s t => step t s) ts s) = tsol s).
Proof.
  intros solve uf dt ts s conservative Hs case step. split.
  - intro Hc. apply (C80_tracer_mass tcells2 two_cells (fun _ => 1) cells2_one case); try assumption.
    + intros co c. exists (fun i => c i + dt * TRes tcells2 case conservative c c (view_old (fun _ => KExpr) co)
                            (view_old (fun _ => KExpr) co) (oth co) i).
      intro i. rewrite !tcells2_mass. ring.
    + intros f fo b. split; [intro k; reflexivity|]. split; [reflexivity|].
      intros k Hb. cbn in Hb. repeat (destruct Hb as [<-|Hb]; [unfold unb, dot2, vb; crunch; lra|]). destruct Hb.
  - intros Hc Es. apply (C80_tracer_constant tcells2 two_cells case) with (a := 7); try assumption.
    + rewrite Es. unfold tracer_of. cbn [tcells2 n_c chi cells2 comb phi Nat.ltb Nat.leb].
      unfold add_s, scale_s, const_s, p0, affine, scal2, add2, unit_of.
      cbn [s_v s_gv s_f s_gf s_b s_gb fst snd Nat.eqb].
      f_equal; repeat (apply functional_extensionality; intro); try (f_equal; lra).
      all: try (destruct x0; cbn [fst snd]; f_equal; lra).
      all: try (destruct x; lra).
      all: destruct (fst (fst (edge x))); lra.
    + intros f fo b. split; [reflexivity|]. split; [reflexivity|]. split; [reflexivity|].
      split; [intros i _; apply p0_affine_gauss|]. split; [intros k _; exact I|].
      intros _ m tb Hm. discriminate Hm.
    + intros co c c' H H'. apply functional_extensionality. intro i.
      specialize (H i). specialize (H' i). rewrite !tcells2_mass in H, H'. lra.
Qed.

Print Assumptions C80_theta_budget.
Print Assumptions C80_theta_volume.
Print Assumptions C80_explicit_budget.
Print Assumptions C80_solution_form_volume.
Print Assumptions C80_lake_stays.
Print Assumptions C80_lake_stays_explicit.
Print Assumptions C80_tracer_mass.
Print Assumptions C80_tracer_constant.
Print Assumptions C80_tracer_explicit.
