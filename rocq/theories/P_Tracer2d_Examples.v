(** C50: concrete cases and the statements that fail. *)
From Coq Require Import Reals List Bool Lra.
From Verif Require Import Forms_Model Forms_Spec Forms_Proofs Forms_Examples P_SWE P_Tracer2d.
Import ListNotations.
Open Scope R_scope.

Ltac crunch := cbn -[Rplus Rmult Rminus Rdiv Ropp IZR sqrt Rmax].

Definition cv (p : nat) : nat := p.
Definition cf (_ : nat) (s : bool) : nat := if s then 0%nat else 1%nat.
Definition cb (b : nat) : nat := fst (fst (edge b)).

Definition tr (bnd : nat -> option (@tbnd nat)) : tracer_env nat nat nat :=
  mk_tenv true (Some (1, fun _ => 1)) bnd (Some (const_s 1)) (fun _ _ => 4) None 0.

Definition closed_tr := tr (fun _ => None).

(** Flow in x that vanishes at the outer ends: speed 2 at the common edge. *)
Definition through : vfield nat nat nat :=
  mk_vf (affine (two 1 1) (two 2 (-2)) (two 0 0)) (affine (fun _ => 0) (fun _ => 0) (fun _ => 0)).

Example ex_mass : forall c elev, cons_advection basin closed_tr (const_s 1) c through elev = 0.
Proof.
  intros c elev. apply C50_mass_conserved; [reflexivity|].
  intros b Hb. cbn in Hb. repeat (destruct Hb as [<-|Hb]; [unfold unb, dot2, vb; crunch; lra|]). destruct Hb.
Qed.

(** ... while the cells exchange mass: tracer 3 in cell 0 moves to cell 1 with the
    flow (2 * 3) plus the Lax-Friedrichs exchange. *)
Lemma up_pos' : forall bnd x, 0 < x -> up_s (tr bnd) x = 1.
Proof. intros. apply up_pos; assumption. Qed.

Example ex_mass_local :
  cons_advection basin closed_tr (p0 (two 0 1)) (p0 (two 3 0)) through (const_s 0) = 2 * 3 + 3 / 2.
Proof.
  assert (H : un_av basin through 0%nat = - 2).
  { unfold un_av, avg_v, avg, normal, dot2. crunch. lra. }
  unfold cons_advection, dx, dS, ds, integral. cbv zeta. cbn [t_dg closed_tr tr t_lax].
  crunch. rewrite H.
  assert (up_s closed_tr (-2) = 0) as -> by (apply up_neg; lra).
  unfold jump_n, normal, unb, vv, vf, vb, scal2, add2, jump, dot2. crunch. lra.
Qed.

Example ex_constant : tracer_advection basin closed_tr (p0 (two 0 1)) (const_s 7) through (const_s 0) = 0.
Proof.
  apply C50_constants; [apply p0_affine_gauss|reflexivity|]. intros b _. exact I.
Qed.

Lemma ind_through : forall K, gauss_sv two_cells (ind cv cf cb K) through.
Proof.
  intro K. unfold gauss_sv, gauss, dx, dS, ds, integral, divv, unb, vb, vf, vv, dot2, normal.
  unfold ind, p0_field, cv, cf, cb, edge. crunch.
  destruct K as [|[|K]]; lra.
Qed.

(** One step of 1/4 with values 3 and 0: both cells stay within [0, 3], and cell 1
    changes. *)
Example ex_bounds : forall K, (K < 2)%nat ->
  0 <= euler_advection basin closed_tr cv cf cb (1/4) (two 3 0) through (const_s 0) K <= 3.
Proof.
  intros K HK. apply C50_maximum_principle.
  - exact two_weights.
  - lra.
  - destruct K as [|[|K]]; [| |exfalso; do 2 apply Nat.succ_lt_mono in HK; inversion HK];
    unfold area, dx, integral, on, cv; crunch; lra.
  - reflexivity.
  - apply ind_through.
  - intros f _. unfold un_f, normal, vf, dot2. crunch. lra.
  - intros b _ tb Hb. discriminate Hb.
  - intro f. unfold lax. crunch. lra.
  - assert (Hp : un_f basin through 0%nat true = 2) by (unfold un_f, normal, vf, dot2; crunch; lra).
    assert (Hm : un_f basin through 0%nat false = -2) by (unfold un_f, normal, vf, dot2; crunch; lra).
    assert (Hb : ds (e_mesh basin) (inflow_b basin cb through K) = 0).
    { apply ds_zero. intros b Hb. unfold inflow_b.
      assert (unb (e_mesh basin) through b = 0) as ->.
      { cbn in Hb. repeat (destruct Hb as [<-|Hb]; [unfold unb, dot2, vb; crunch; lra|]). destruct Hb. }
      rewrite Ropp_0, Rmax_left by lra. ring. }
    unfold cfl. rewrite Hb. unfold dS, integral, inflow_f. crunch. rewrite Hp, Hm.
    rewrite (Rmax_left 0 (-(2))) by lra. rewrite (Rmax_right 0 (- -2)) by lra.
    unfold lax, area, dx, integral, on, cf, cv. crunch.
    destruct K as [|[|K]]; [| |exfalso; do 2 apply Nat.succ_lt_mono in HK; inversion HK]; crunch; lra.
  - intro L. unfold two. destruct L; lra.
  - intros b tb v H. discriminate H.
Qed.

(* ------------------------------------------------------------------ *)
(** * What fails *)

(** A boundary without conditions is a wall for the water but not for the tracer:
    in the conservative form mass leaks wherever the velocity is not exactly
    tangential there. *)
Definition uniform : vfield nat nat nat :=
  mk_vf (affine (fun _ => 1) (fun _ => 0) (fun _ => 0)) (affine (fun _ => 0) (fun _ => 0) (fun _ => 0)).

Theorem C50_closed_mass_refuted :
  exists c uv elev,
    (forall k, e_bnd basin k = Closed) /\ (forall k, t_bnd closed_tr k = None) /\
    continuity_residual basin (const_s 1) uv elev uv elev (fun _ => 0) = 0 /\
    cons_advection basin closed_tr (const_s 1) c uv elev <> 0.
Proof.
  exists (p0 (two 2 3)), uniform, (const_s 0). split; [reflexivity|split; [reflexivity|split]].
  - apply C49_volume_conserved; [reflexivity|intro k; reflexivity|reflexivity].
  - rewrite C50_conservative_budget. unfold ds, integral, outflux, unb, vb, dot2. crunch. lra.
Qed.

(** Constants are not kept at a boundary where a normal velocity is prescribed
    that differs from the interior one, even if the tracer value is not given. *)
Definition inlet : tracer_env nat nat nat :=
  tr (fun k => match k with 1%nat => Some (mk_tb None (UNormal (fun _ => 1)) None None) | _ => None end).

Theorem C50_constants_refuted :
  exists phi uv elev, gauss_sv two_cells phi uv /\
    tracer_advection basin inlet phi (const_s 1) uv elev <> 0.
Proof.
  exists (p0 (two 1 0)), (@zero_v nat nat nat), (@const_s nat nat nat 0). split.
  - unfold gauss_sv, gauss, dx, dS, ds, integral, divv, unb, vb, vf, vv, dot2. crunch. lra.
  - assert (Hu : dot2 (scal2 0.5 (add2 (vb (@zero_v nat nat nat) 0%nat)
         (tuv_ext basin (mk_tb None (UNormal (fun _ => 1)) None None) (s_b (@const_s nat nat nat 0)) (vb (@zero_v nat nat nat)) 0%nat)))
         (m_nb two_cells 0%nat) = 1 / 2).
    { unfold tuv_ext, uv_ext, vb, scal2, add2, dot2. crunch. lra. }
    unfold tracer_advection, dx, dS, ds, integral. cbv zeta.
    cbn [t_dg inlet tr t_lax].
    cbn [e_mesh basin env_of two_cells m_cells m_wv m_facets m_wf m_nf m_bnds m_wb m_marker map fold_right
         edge snd t_bnd tr inlet].
    rewrite Hu. 
    unfold divv, unb, vb, vf, vv, jump, normal, dot2, c_ext, up_s, sign.
    crunch. destruct (Rlt_dec 0 (1 / 2)); [|lra]. lra.
Qed.

(** With a velocity whose normal component jumps, the upwind value can come from
    the wrong side and a cell value leaves the range of all values, however small
    the time step. *)
Definition colliding : vfield nat nat nat :=
  mk_vf (affine (two 1 (-3)) (fun _ => 0) (fun _ => 0)) (affine (fun _ => 0) (fun _ => 0) (fun _ => 0)).

Definition no_lax : tracer_env nat nat nat :=
  mk_tenv true None (fun _ => None) None (fun _ _ => 4) None 0.

Theorem C50_maximum_principle_refuted :
  forall dt, 0 < dt ->
  exists c uv elev K,
    (forall L, 0 <= c L <= 1) /\ gauss_sv two_cells (ind cv cf cb K) uv /\
    euler_advection basin no_lax cv cf cb dt c uv elev K < 0.
Proof.
  intros dt Hdt. exists (two 0 1), colliding, (const_s 0), 0%nat. split; [|split].
  - intro L. unfold two. destruct L; lra.
  - unfold gauss_sv, gauss, dx, dS, ds, integral, divv, unb, vb, vf, vv, dot2, normal.
    unfold ind, p0_field, cv, cf, cb, edge. crunch. lra.
  - unfold euler_advection.
    assert (Ha : area basin cv 0 = 1) by (unfold area, dx, integral, on, cv; crunch; lra).
    rewrite Ha.
    assert (H : tracer_advection basin no_lax (ind cv cf cb 0) (p0_field cv cf cb (two 0 1)) colliding (const_s 0) = -1).
    { assert (Hu : un_av basin colliding 0%nat = 1).
      { unfold un_av, avg_v, avg, normal, dot2. crunch. lra. }
      unfold tracer_advection, dx, dS, ds, integral. cbv zeta. cbn [t_dg no_lax t_lax].
      crunch. rewrite Hu. rewrite (up_pos no_lax 1) by lra.
      unfold divv, unb, vb, vf, vv, jump, normal, dot2, cv, cf, cb. crunch. lra. }
    rewrite H. crunch. lra.
Qed.

(** In the conservative form a constant concentration is not kept either: the
    volume flux of the free surface contains the elevation jump, the tracer flux
    does not. [q] is the depth itself, so the concentration is one everywhere. *)
Definition deep : swe_env nat nat nat :=
  env_of (fun _ => Closed) (fun b _ => b) None.

Theorem C50_conservative_constant_refuted :
  exists phi elev,
    hu_div deep phi zero_v elev zero_v (const_s 0) (fun _ => 0) <> 0 /\
    cons_advection deep closed_tr phi (const_s 10) zero_v elev = 0.
Proof.
  exists (p0 (two 1 0)), (p0 (two 1 0)). split.
  - unfold hu_div, dx, dS, ds, integral. crunch.
    unfold hf, hv, avg_v, avg, jump_n, normal, vv, vf, add2, scal2, dot2. crunch.
    assert (Hs : 0 < sqrt (10 / (0.5 * (10 + 10)))) by (apply sqrt_lt_R0; lra).
    set (r := sqrt _) in *. intro H. clear - H Hs. lra.
  - assert (Hu : forall f, un_av deep (@zero_v nat nat nat) f = 0).
    { intro f. unfold un_av, avg_v, avg, dot2, normal. crunch. lra. }
    unfold cons_advection. rewrite (dx_zero (e_mesh deep)), (dS_zero (e_mesh deep)), (ds_zero (e_mesh deep)).
    + cbn [t_dg closed_tr tr t_lax]. rewrite (dS_zero (e_mesh deep)); [lra|].
      intros f _. unfold jump. crunch. lra.
    + intros b _. unfold unb, vb, dot2. crunch. lra.
    + intros f _. cbv zeta. unfold scal2, add2, vf, dot2. crunch. lra.
    + intros p _. unfold vv, dot2. crunch. lra.
Qed.
