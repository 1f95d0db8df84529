(** C50: the 2D tracer forms conserve mass, keep constants and respect bounds. *)
From Coq Require Import Reals List Bool Arith Lra.
From Verif Require Import Forms_Model Forms_Spec Forms_Proofs.
Import ListNotations.
Open Scope R_scope.

Section Tracer.
Context {V F B : Type}.
Variable E : swe_env V F B.
Variable T : tracer_env V F B.
Notation M := (e_mesh E).
Notation KS := (@const_s V F B).
Implicit Types (phi c elev q mu : sfield V F B) (uv : vfield V F B).

(* ------------------------------------------------------------------ *)
(** * Mass *)

(** What leaves through a boundary point per unit length (conservative form). *)
Definition outflux c uv elev (b : B) : R :=
  match t_bnd T (m_marker M b) with
  | None => s_b c b * unb M uv b
  | Some tb =>
      let ue := tuv_ext E tb (s_b elev) (vb uv) b in
      let s := up_s T (dot2 (scal2 0.5 (add2 (vb uv b) ue)) (m_nb M b)) in
      s_b c b * s * unb M uv b + c_ext tb (s_b c b) b * (1 - s) * dot2 ue (m_nb M b)
  end.

Lemma jump_n_const : forall k f, jump_n M (KS k) f = (0, 0).
Proof. intros. unfold jump_n, normal; cbn [const_s s_f fst snd]. f_equal; ring. Qed.

Theorem C50_conservative_budget : forall c uv elev,
  cons_advection E T (KS 1) c uv elev = - ds M (outflux c uv elev).
Proof.
  intros c uv elev. unfold cons_advection.
  rewrite (dx_zero M).
  2:{ intros p _. cbn [const_s s_gv]. rewrite dot2_zero_l. ring. }
  assert (H : (if t_dg T then
          dS M (fun f =>
            let s := up_s T (un_av E uv f) in
            let flux := add2 (scal2 (s_f c f false * s) (vf uv f false))
                             (scal2 (s_f c f true * (1 - s)) (vf uv f true)) in
            dot2 flux (jump_n M (KS 1) f))
          + match t_lax T with
            | None => 0
            | Some (lf, speed) =>
                dS M (fun f => 0.5 * speed f * lf * (jump (s_f (KS 1) f) * jump (s_f c f)))
            end
        else 0) = 0).
  { destruct (t_dg T); [|reflexivity].
    rewrite (dS_zero M).
    2:{ intros f _. cbv zeta. rewrite jump_n_const. apply dot2_zero_r. }
    destruct (t_lax T) as [[lf sp]|]; [|ring].
    rewrite (dS_zero M); [ring|]. intros f _. unfold jump at 1; cbn [const_s s_f]. ring. }
  cbv zeta in H. rewrite H.
  assert (H1 : ds M (fun b => match t_bnd T (m_marker M b) with
         | None => s_b c b * unb M uv b * s_b (KS 1) b
         | Some tb =>
             dot2 (add2 (scal2 (s_b c b * up_s T (dot2 (scal2 0.5 (add2 (vb uv b) (tuv_ext E tb (s_b elev) (vb uv) b))) (m_nb M b))) (vb uv b))
                        (scal2 (c_ext tb (s_b c b) b * (1 - up_s T (dot2 (scal2 0.5 (add2 (vb uv b) (tuv_ext E tb (s_b elev) (vb uv) b))) (m_nb M b)))) (tuv_ext E tb (s_b elev) (vb uv) b)))
               (m_nb M b) * s_b (KS 1) b
         end) = ds M (outflux c uv elev)).
  { apply integral_ext. intros b _. unfold outflux. destruct (t_bnd T (m_marker M b)) as [tb|].
    - cbv zeta. cbn [const_s s_b].
      generalize (up_s T (dot2 (scal2 0.5 (add2 (vb uv b) (tuv_ext E tb (s_b elev) (vb uv) b))) (m_nb M b))).
      intro s. unfold unb, dot2, add2, scal2; cbn [fst snd]. ring.
    - cbn [const_s s_b]. ring. }
  rewrite H1. ring.
Qed.

(** With no conditions given and no flow through the boundary the total mass does
    not change, whatever the tracer, velocity and upwinding. *)
Theorem C50_mass_conserved : forall c uv elev,
  (forall k, t_bnd T k = None) -> (forall b, In b (m_bnds M) -> unb M uv b = 0) ->
  cons_advection E T (KS 1) c uv elev = 0.
Proof.
  intros c uv elev Hn Hu. rewrite C50_conservative_budget, (ds_zero M); [ring|].
  intros b Hb. unfold outflux. rewrite (Hn (m_marker M b)), (Hu b Hb). ring.
Qed.

(** A given exterior value enters with inflow only; with outflow the interior
    value leaves. *)
Theorem C50_upwind_boundary : forall c uv elev b tb,
  t_bnd T (m_marker M b) = Some tb -> tb_uv tb = USym ->
  (0 < unb M uv b -> outflux c uv elev b = s_b c b * unb M uv b) /\
  (unb M uv b < 0 -> outflux c uv elev b = c_ext tb (s_b c b) b * unb M uv b).
Proof.
  intros c uv elev b tb Hb Hu. unfold outflux. rewrite Hb. unfold tuv_ext, uv_ext. cbn [ex_uv].
  rewrite Hu. cbv zeta.
  assert (dot2 (scal2 0.5 (add2 (vb uv b) (vb uv b))) (m_nb M b) = unb M uv b) as ->.
  { unfold unb, dot2, scal2, add2; cbn [fst snd]. replace 0.5 with (1/2) by lra. field. }
  fold (unb M uv b). unfold up_s, sign. split; intro H.
  - destruct (Rlt_dec 0 (unb M uv b)); [|contradiction]. replace 0.5 with (1/2) by lra. field.
  - destruct (Rlt_dec 0 (unb M uv b)); [lra|]. destruct (Rlt_dec (unb M uv b) 0); [|contradiction].
    replace 0.5 with (1/2) by lra. field.
Qed.

(* ------------------------------------------------------------------ *)
(** * Constants *)

(** An open tracer boundary that does not disturb the constant [k]. *)
Definition neutral_bnd (k : R) uv elev (b : B) : Prop :=
  match t_bnd T (m_marker M b) with
  | None => True
  | Some tb =>
      (forall v, tb_value tb = Some v -> v b = k) /\
      dot2 (tuv_ext E tb (s_b elev) (vb uv) b) (m_nb M b) = unb M uv b
  end.

Theorem C50_constants : forall k phi uv elev,
  gauss_sv M phi uv -> t_dg T = true ->
  (forall b, In b (m_bnds M) -> neutral_bnd k uv elev b) ->
  tracer_advection E T phi (KS k) uv elev = 0.
Proof.
  intros k phi uv elev Hg Hd Hb. unfold tracer_advection. rewrite Hd.
  assert (H1 : dx M (fun p => (s_v phi p * divv uv p + dot2 (vv uv p) (s_gv phi p)) * s_v (KS k) p)
             = k * dx M (fun p => s_v phi p * divv uv p + dot2 (vv uv p) (s_gv phi p))).
  { unfold dx. rewrite <- integral_scal. apply integral_ext. intros p _. cbn [const_s s_v]. ring. }
  assert (H2 : dS M (fun f =>
            let s := up_s T (un_av E uv f) in
            let c_up := s_f (KS k) f false * s + s_f (KS k) f true * (1 - s) in
            c_up * (s_f phi f true * dot2 (vf uv f true) (normal M f true)
                    + s_f phi f false * dot2 (vf uv f false) (normal M f false)))
      = k * dS M (fun f => s_f phi f true * dot2 (vf uv f true) (normal M f true)
                    + s_f phi f false * dot2 (vf uv f false) (normal M f false))).
  { unfold dS. rewrite <- integral_scal. apply integral_ext. intros f _. cbv zeta.
    cbn [const_s s_f]. ring. }
  assert (H3 : match t_lax T with
            | None => 0
            | Some (lf, speed) =>
                dS M (fun f => 0.5 * speed f * lf * (jump (s_f phi f) * jump (s_f (KS k) f)))
            end = 0).
  { destruct (t_lax T) as [[lf sp]|]; [|reflexivity].
    apply dS_zero. intros f _. unfold jump at 2; cbn [const_s s_f]. ring. }
  assert (H4 : ds M (fun b =>
         match t_bnd T (m_marker M b) with
         | None => s_b (KS k) b * unb M uv b * s_b phi b
         | Some tb =>
             let uv_av := scal2 0.5 (add2 (vb uv b) (tuv_ext E tb (s_b elev) (vb uv) b)) in
             let un := dot2 uv_av (m_nb M b) in
             let s := up_s T un in
             (s_b (KS k) b * s + c_ext tb (s_b (KS k) b) b * (1 - s)) * un * s_b phi b
         end) = k * ds M (fun b => s_b phi b * unb M uv b)).
  { unfold ds. rewrite <- integral_scal. apply integral_ext. intros b Hin. specialize (Hb b Hin).
    unfold neutral_bnd in Hb. destruct (t_bnd T (m_marker M b)) as [tb|]; cbn [const_s s_b]; [|ring].
    destruct Hb as (Hv & Hu). cbv zeta.
    assert (c_ext tb k b = k) as ->.
    { unfold c_ext. destruct (tb_value tb) as [v|]; [apply (Hv v eq_refl)|reflexivity]. }
    assert (dot2 (scal2 0.5 (add2 (vb uv b) (tuv_ext E tb (s_b elev) (vb uv) b))) (m_nb M b)
            = unb M uv b) as ->.
    { transitivity (0.5 * (unb M uv b + dot2 (tuv_ext E tb (s_b elev) (vb uv) b) (m_nb M b))).
      - unfold unb, dot2, scal2, add2; cbn [fst snd]. ring.
      - rewrite Hu. apply half_plus. }
    ring. }
  cbv zeta in H2, H4. rewrite H1, H2, H3, H4. unfold gauss_sv, gauss in Hg. rewrite Hg. ring.
Qed.

(** The exact disturbance of a constant by a boundary where another velocity is
    prescribed. *)
Theorem C50_constants_at_prescribed_velocity : forall k phi uv elev tb b,
  t_bnd T (m_marker M b) = Some tb -> tb_value tb = None ->
  let un := dot2 (scal2 0.5 (add2 (vb uv b) (tuv_ext E tb (s_b elev) (vb uv) b))) (m_nb M b) in
  (s_b (KS k) b * up_s T un + c_ext tb (s_b (KS k) b) b * (1 - up_s T un)) * un * s_b phi b
  - k * unb M uv b * s_b phi b
  = 0.5 * k * (dot2 (tuv_ext E tb (s_b elev) (vb uv) b) (m_nb M b) - unb M uv b) * s_b phi b.
Proof.
  intros k phi uv elev tb b Hb Hv un. unfold c_ext. rewrite Hv. cbn [const_s s_b].
  replace (k * up_s T un + k * (1 - up_s T un)) with k by ring.
  unfold un, unb, dot2, scal2, add2; cbn [fst snd]. replace 0.5 with (1/2) by lra. field.
Qed.

(* ------------------------------------------------------------------ *)
(** * Diffusion *)

(** Total change by diffusion: the prescribed fluxes plus what the open
    boundaries without 'diff_flux' let through; nothing at boundaries without
    conditions. *)
Definition diff_influx mu c uv elev gext (b : B) : R :=
  match t_bnd T (m_marker M b) with
  | None => 0
  | Some tb =>
      match tb_diff_flux tb with
      | Some q => q b
      | None =>
          let ue := tuv_ext E tb (s_b elev) (vb uv) b in
          let s := up_s T (dot2 (scal2 0.5 (add2 (vb uv b) ue)) (m_nb M b)) in
          s_b mu b * dot2 (add2 (scal2 s (s_gb c b))
                             (scal2 (1 - s) (match tb_value tb with
                                             | Some _ => gext b | None => s_gb c b end)))
                       (m_nb M b)
      end
  end.

Theorem C50_diffusion_budget : forall mu c uv elev gext,
  t_mu T = Some mu ->
  tracer_diffusion E T (KS 1) c uv elev gext = ds M (diff_influx mu c uv elev gext).
Proof.
  intros mu c uv elev gext Hm. unfold tracer_diffusion. rewrite Hm.
  rewrite (dx_zero M).
  2:{ intros p _. cbn [const_s s_gv]. apply dot2_zero_l. }
  match goal with |- - (0 + (if t_dg T then ?I else 0) + ?J) = ?K =>
    assert (HI : I = 0); [|assert (HJ : J = - K)] end.
  - apply dS_zero. intros f _. rewrite jump_n_const, !dot2_zero_l.
    cbn [const_s s_gf].
    assert (scal2 0.5 (add2 (scal2 (s_f mu f true) (0, 0)) (scal2 (s_f mu f false) (0, 0))) = (0, 0)) as ->.
    { unfold scal2, add2; cbn [fst snd]; f_equal; ring. }
    rewrite dot2_zero_l. ring.
  - unfold ds. rewrite <- integral_opp. apply integral_ext. intros b _. unfold diff_influx.
    destruct (t_bnd T (m_marker M b)) as [tb|]; [|ring].
    destruct (tb_diff_flux tb) as [q|]; cbn [const_s s_b]; [ring|].
    cbv zeta. unfold dot2, scal2; cbn [fst snd]. ring.
  - rewrite HI, HJ. destruct (t_dg T); ring.
Qed.

Theorem C50_diffusion_conserves : forall c uv elev gext,
  (forall k, t_bnd T k = None) -> tracer_diffusion E T (KS 1) c uv elev gext = 0.
Proof.
  intros c uv elev gext Hn. destruct (t_mu T) as [mu|] eqn:Em.
  - rewrite (C50_diffusion_budget mu) by exact Em. apply ds_zero. intros b _.
    unfold diff_influx. rewrite (Hn (m_marker M b)). reflexivity.
  - unfold tracer_diffusion. rewrite Em. reflexivity.
Qed.

(** Diffusion leaves constants alone. *)
Theorem C50_diffusion_constants : forall k phi uv elev gext,
  (forall k tb, t_bnd T k = Some tb -> tb_diff_flux tb = None /\ tb_value tb = None) ->
  tracer_diffusion E T phi (KS k) uv elev gext = 0.
Proof.
  intros k phi uv elev gext Hn. unfold tracer_diffusion. destruct (t_mu T) as [mu|]; [|reflexivity].
  rewrite (dx_zero M).
  2:{ intros p _. cbn [const_s s_gv]. unfold scal2; cbn [fst snd]. rewrite Rmult_0_r. apply dot2_zero_r. }
  match goal with |- - (0 + (if t_dg T then ?I else 0) + ?J) = 0 =>
    assert (HI : I = 0); [|assert (HJ : J = 0)] end.
  - apply dS_zero. intros f _. rewrite jump_n_const, !dot2_zero_r. cbn [const_s s_gf].
    assert (scal2 0.5 (add2 (scal2 (s_f mu f true) (0, 0)) (scal2 (s_f mu f false) (0, 0))) = (0, 0)) as ->.
    { unfold scal2, add2; cbn [fst snd]; f_equal; ring. }
    unfold scal2; cbn [fst snd]. rewrite !Rmult_0_r, !dot2_zero_r. ring.
  - apply ds_zero. intros b _. destruct (t_bnd T (m_marker M b)) as [tb|] eqn:Eb; [|reflexivity].
    destruct (Hn _ _ Eb) as (-> & ->). cbn [const_s s_gb]. cbv zeta.
    unfold dot2, scal2, add2; cbn [fst snd]. ring.
  - rewrite HI, HJ. destruct (t_dg T); ring.
Qed.

Definition psig (f : F) : R :=
  if Rgt_dec (t_sigma_f T f true) (t_sigma_f T f false) then t_sigma_f T f true else t_sigma_f T f false.

Definition mean_flux mu q (f : F) : R * R :=
  scal2 0.5 (add2 (scal2 (s_f mu f true) (s_gf q f true)) (scal2 (s_f mu f false) (s_gf q f false))).

(** The diffusion operator is symmetric, also where the diffusivity jumps. *)
Theorem C50_diffusion_symmetric : forall c q uv elev gext,
  (forall k, t_bnd T k = None) ->
  tracer_diffusion E T c q uv elev gext = tracer_diffusion E T q c uv elev gext.
Proof.
  intros c q uv elev gext Hn. unfold tracer_diffusion. destruct (t_mu T) as [mu|]; [|reflexivity].
  f_equal. f_equal; [f_equal|].
  - apply integral_ext. intros p _. unfold dot2, scal2; cbn [fst snd]. ring.
  - destruct (t_dg T); [|reflexivity]. apply integral_ext. intros f _. cbv zeta.
    unfold dot2, scal2, add2; cbn [fst snd]. ring.
  - apply integral_ext. intros b _. rewrite (Hn (m_marker M b)). reflexivity.
Qed.

(** ... and dissipative once the penalty dominates the mean fluxes (always so for
    P0). *)
Theorem C50_diffusion_dissipates : forall mu c uv elev gext,
  positive_weights M -> t_mu T = Some mu -> (forall k, t_bnd T k = None) ->
  (forall p, 0 <= s_v mu p) ->
  (forall f, In f (m_facets M) -> 0 < psig f /\ 0 < avg (s_f mu f)) ->
  (t_dg T = true ->
   dS M (fun f => dot2 (mean_flux mu c f) (mean_flux mu c f) / (psig f * avg (s_f mu f)))
   <= dx M (fun p => s_v mu p * dot2 (s_gv c p) (s_gv c p))) ->
  tracer_diffusion E T c c uv elev gext <= 0.
Proof.
  intros mu c uv elev gext (Hw1 & Hw2 & _) Hm Hn Hmu Hs Hpen. unfold tracer_diffusion. rewrite Hm.
  rewrite (ds_zero M).
  2:{ intros b _. rewrite (Hn (m_marker M b)). reflexivity. }
  assert (H1 : dx M (fun p => dot2 (s_gv c p) (scal2 (s_v mu p) (s_gv c p)))
             = dx M (fun p => s_v mu p * dot2 (s_gv c p) (s_gv c p))).
  { apply integral_ext. intros p _. unfold dot2, scal2; cbn [fst snd]. ring. }
  rewrite H1. destruct (t_dg T).
  2:{ assert (0 <= dx M (fun p => s_v mu p * dot2 (s_gv c p) (s_gv c p))); [|lra].
      apply integral_nonneg; [intros p Hp; apply Rlt_le, Hw1, Hp|]. intros p _.
      apply Rmult_le_pos; [apply Hmu|apply dot2_self]. }
  match goal with |- - (_ + ?I + 0) <= 0 =>
    assert (HI : - dS M (fun f => dot2 (mean_flux mu c f) (mean_flux mu c f) / (psig f * avg (s_f mu f)))
                 <= I) end.
  2:{ specialize (Hpen eq_refl). lra. }
  unfold dS. rewrite <- integral_opp.
  apply integral_le; [intros p Hp; apply Rlt_le, Hw2, Hp|]. intros f Hf.
  destruct (Hs f Hf) as (Hp & Ha). cbv zeta. fold (psig f). fold (mean_flux mu c f).
  set (k := psig f) in *. set (a := avg (s_f mu f)) in *.
  destruct (mean_flux mu c f) as [g1 g2]. destruct (jump_n M c f) as [j1 j2].
  unfold dot2, scal2; cbn [fst snd].
  assert (Hka : 0 < k * a) by (apply Rmult_lt_0_compat; assumption).
  pose proof (Rle_0_sqr (k * a * j1 - g1)) as S1. pose proof (Rle_0_sqr (k * a * j2 - g2)) as S2.
  unfold Rsqr in S1, S2.
  assert (HH : 0 <= / (k * a) * ((k * a * j1 - g1) * (k * a * j1 - g1)
                                 + (k * a * j2 - g2) * (k * a * j2 - g2))).
  { apply Rmult_le_pos; [apply Rlt_le, Rinv_0_lt_compat, Hka|lra]. }
  assert (HE : / (k * a) * ((k * a * j1 - g1) * (k * a * j1 - g1)
                            + (k * a * j2 - g2) * (k * a * j2 - g2))
     = k * (j1 * (a * j1) + j2 * (a * j2)) - (g1 * j1 + g2 * j2) - (j1 * g1 + j2 * g2)
       + (g1 * g1 + g2 * g2) / (k * a)).
  { field. split; apply Rgt_not_eq; assumption. }
  rewrite HE in HH. lra.
Qed.

(* ------------------------------------------------------------------ *)
(** * Bounds for piecewise constant tracers *)

(** Which cell a quadrature point belongs to, from either side at a facet. *)
Variable cell_v : V -> nat.
Variable cell_f : F -> bool -> nat.
Variable cell_b : B -> nat.

Definition p0_field (c : nat -> R) : sfield V F B :=
  mk_s (fun p => c (cell_v p)) (fun _ => (0, 0))
       (fun f s => c (cell_f f s)) (fun _ _ => (0, 0))
       (fun b => c (cell_b b)) (fun _ => (0, 0)).

Definition ind (K : nat) : sfield V F B := p0_field (fun L => if Nat.eqb L K then 1 else 0).
Definition on (K L : nat) : R := if Nat.eqb L K then 1 else 0.

Definition area (K : nat) : R := dx M (fun p => on K (cell_v p)).

(** One explicit Euler step of the non-conservative advection (and diffusion). *)
Definition euler_advection (dt : R) (c : nat -> R) uv elev (K : nat) : R :=
  c K + dt / area K * tracer_advection E T (ind K) (p0_field c) uv elev.

Definition euler_conservative (dt : R) (c : nat -> R) uv elev (K : nat) : R :=
  c K + dt / area K * cons_advection E T (ind K) (p0_field c) uv elev.

Definition euler_diffusion (dt : R) (c : nat -> R) uv elev (K : nat) : R :=
  c K + dt / area K * tracer_diffusion E T (ind K) (p0_field c) uv elev (fun _ => (0, 0)).

(** The normal velocity seen from side [s]; continuous if both sides agree. *)
Definition un_f uv (f : F) (s : bool) : R := dot2 (vf uv f s) (normal M f s).

Definition normal_continuous uv : Prop :=
  forall f, In f (m_facets M) -> un_f uv f true = - un_f uv f false.

Definition lax (f : F) : R :=
  match t_lax T with None => 0 | Some (lf, speed) => 0.5 * speed f * lf end.

(** Inflow into cell [K] through a facet and through the boundary. *)
Definition inflow_f uv (K : nat) (f : F) : R :=
  on K (cell_f f true) * (Rmax 0 (- un_f uv f true) + lax f)
  + on K (cell_f f false) * (Rmax 0 (- un_f uv f false) + lax f).
Definition inflow_b uv (K : nat) (b : B) : R :=
  on K (cell_b b) * Rmax 0 (- unb M uv b).

(** The CFL condition: in one step at most the content of the cell flows in. *)
Definition cfl (dt : R) uv (K : nat) : Prop :=
  dt * (dS M (inflow_f uv K) + ds M (inflow_b uv K)) <= area K.

Lemma un_av_eq : forall uv f, un_f uv f true = - un_f uv f false -> un_av E uv f = un_f uv f false.
Proof.
  intros uv f H. unfold un_av, un_f, avg_v, avg, vf, normal, dot2 in *; cbn [fst snd] in *.
  replace 0.5 with (1/2) by lra. lra.
Qed.

Lemma up_pos : forall x, 0 < x -> up_s T x = 1.
Proof. intros x H. unfold up_s, sign. destruct (Rlt_dec 0 x); lra. Qed.
Lemma up_neg : forall x, x < 0 -> up_s T x = 0.
Proof. intros x H. unfold up_s, sign. destruct (Rlt_dec 0 x); [lra|]. destruct (Rlt_dec x 0); lra. Qed.

(** Exchange through one facet point with the neighbour. *)
Lemma facet_bound : forall (c : nat -> R) uv K f lo,
  un_f uv f true = - un_f uv f false -> 0 <= lax f ->
  (forall L, lo <= c L) ->
  - (inflow_f uv K f * (c K - lo))
  <= (c K - (c (cell_f f false) * up_s T (un_av E uv f)
             + c (cell_f f true) * (1 - up_s T (un_av E uv f))))
     * (on K (cell_f f true) * un_f uv f true + on K (cell_f f false) * un_f uv f false)
     - lax f * ((on K (cell_f f true) - on K (cell_f f false))
                * (c (cell_f f true) - c (cell_f f false))).
Proof.
  intros c uv K f lo Hc Hl Hlo. rewrite (un_av_eq uv f Hc). unfold inflow_f. rewrite Hc.
  set (q := un_f uv f false). set (cp := c (cell_f f true)). set (cm := c (cell_f f false)).
  pose proof (Hlo (cell_f f true)) as Hp. fold cp in Hp.
  pose proof (Hlo (cell_f f false)) as Hm. fold cm in Hm.
  pose proof (Hlo K) as HK.
  assert (HP : on K (cell_f f true) = 0 \/ on K (cell_f f true) = 1 /\ cp = c K).
  { unfold on, cp. destruct (Nat.eqb_spec (cell_f f true) K) as [<-|]; [right; split; reflexivity|left; reflexivity]. }
  assert (HM : on K (cell_f f false) = 0 \/ on K (cell_f f false) = 1 /\ cm = c K).
  { unfold on, cm. destruct (Nat.eqb_spec (cell_f f false) K) as [<-|]; [right; split; reflexivity|left; reflexivity]. }
  rewrite Ropp_involutive.
  pose proof (Rmax_l 0 q) as R1. pose proof (Rmax_r 0 q) as R2.
  pose proof (Rmax_l 0 (- q)) as R3. pose proof (Rmax_r 0 (- q)) as R4.
  set (l := lax f) in *.
  assert (L1 : 0 <= l * (cp - lo)) by (apply Rmult_le_pos; lra).
  assert (L2 : 0 <= l * (cm - lo)) by (apply Rmult_le_pos; lra).
  assert (L3 : 0 <= l * (c K - lo)) by (apply Rmult_le_pos; lra).
  destruct (Rtotal_order q 0) as [Hq|[Hq|Hq]].
  - rewrite (up_neg q Hq).
    assert (Rmax 0 q = 0) as -> by (apply Rmax_left; lra).
    assert (Rmax 0 (- q) = - q) as -> by (apply Rmax_right; lra).
    assert (Q1 : 0 <= (- q) * (cp - lo)) by (apply Rmult_le_pos; lra).
    destruct HP as [->|[-> HP]]; destruct HM as [->|[-> HM]]; try rewrite HP in *; try rewrite HM in *; lra.
  - rewrite Hq, Ropp_0. assert (Rmax 0 0 = 0) as -> by (apply Rmax_left; lra).
    destruct HP as [->|[-> HP]]; destruct HM as [->|[-> HM]]; try rewrite HP in *; try rewrite HM in *; lra.
  - rewrite (up_pos q Hq).
    assert (Rmax 0 q = q) as -> by (apply Rmax_right; lra).
    assert (Rmax 0 (- q) = 0) as -> by (apply Rmax_left; lra).
    assert (Q1 : 0 <= q * (cm - lo)) by (apply Rmult_le_pos; lra).
    destruct HP as [->|[-> HP]]; destruct HM as [->|[-> HM]]; try rewrite HP in *; try rewrite HM in *; lra.
Qed.

Definition bnd_change (c : nat -> R) uv (K : nat) elev (b : B) : R :=
  match t_bnd T (m_marker M b) with
  | None => 0
  | Some tb => on K (cell_b b) * (c K - (c (cell_b b) * up_s T (unb M uv b)
                 + c_ext tb (c (cell_b b)) b * (1 - up_s T (unb M uv b)))) * unb M uv b
  end.

(** Boundaries whose prescribed velocity, if any, agrees with the interior one. *)
Definition consistent_bnd uv elev : Prop :=
  forall b, In b (m_bnds M) -> forall tb, t_bnd T (m_marker M b) = Some tb ->
  dot2 (tuv_ext E tb (s_b elev) (vb uv) b) (m_nb M b) = unb M uv b.

Lemma advection_split : forall (c : nat -> R) uv elev K,
  t_dg T = true -> gauss_sv M (ind K) uv -> consistent_bnd uv elev ->
  tracer_advection E T (ind K) (p0_field c) uv elev
  = dS M (fun f => (c K - (c (cell_f f false) * up_s T (un_av E uv f)
             + c (cell_f f true) * (1 - up_s T (un_av E uv f))))
     * (on K (cell_f f true) * un_f uv f true + on K (cell_f f false) * un_f uv f false)
     - lax f * ((on K (cell_f f true) - on K (cell_f f false))
                * (c (cell_f f true) - c (cell_f f false))))
    + ds M (bnd_change c uv K elev).
Proof.
  intros c uv elev K Hd Hg Hb. unfold tracer_advection. rewrite Hd.
  assert (H1 : dx M (fun p => (s_v (ind K) p * divv uv p + dot2 (vv uv p) (s_gv (ind K) p)) * s_v (p0_field c) p)
             = c K * dx M (fun p => s_v (ind K) p * divv uv p + dot2 (vv uv p) (s_gv (ind K) p))).
  { unfold dx. rewrite <- integral_scal. apply integral_ext. intros p _.
    cbn [ind p0_field s_v s_gv]. rewrite dot2_zero_r.
    destruct (Nat.eqb_spec (cell_v p) K) as [->|]; ring. }
  rewrite H1. unfold gauss_sv, gauss in Hg. rewrite Hg. clear H1.
  assert (H3 : match t_lax T with
            | None => 0
            | Some (lf, speed) =>
                dS M (fun f => 0.5 * speed f * lf * (jump (s_f (ind K) f) * jump (s_f (p0_field c) f)))
            end = dS M (fun f => lax f * ((on K (cell_f f true) - on K (cell_f f false))
                * (c (cell_f f true) - c (cell_f f false))))).
  { unfold lax. destruct (t_lax T) as [[lf sp]|].
    - apply integral_ext. intros f _. reflexivity.
    - symmetry. apply dS_zero. intros f _. ring. }
  rewrite H3. clear H3.
  assert (H4 : ds M (fun b =>
         match t_bnd T (m_marker M b) with
         | None => s_b (p0_field c) b * unb M uv b * s_b (ind K) b
         | Some tb =>
             let uv_av := scal2 0.5 (add2 (vb uv b) (tuv_ext E tb (s_b elev) (vb uv) b)) in
             let un := dot2 uv_av (m_nb M b) in
             let s := up_s T un in
             (s_b (p0_field c) b * s + c_ext tb (s_b (p0_field c) b) b * (1 - s)) * un * s_b (ind K) b
         end) = c K * ds M (fun b => s_b (ind K) b * unb M uv b) - ds M (bnd_change c uv K elev)).
  { unfold ds. rewrite <- integral_scal, <- integral_minus. apply integral_ext. intros b Hin.
    unfold bnd_change. specialize (Hb b Hin). destruct (t_bnd T (m_marker M b)) as [tb|].
    - cbv zeta.
      assert (dot2 (scal2 0.5 (add2 (vb uv b) (tuv_ext E tb (s_b elev) (vb uv) b))) (m_nb M b)
            = unb M uv b) as ->.
      { transitivity (0.5 * (unb M uv b + dot2 (tuv_ext E tb (s_b elev) (vb uv) b) (m_nb M b))).
        - unfold unb, dot2, scal2, add2; cbn [fst snd]. ring.
        - rewrite (Hb tb eq_refl). apply half_plus. }
      cbn [ind p0_field s_b]. unfold on. ring.
    - cbn [ind p0_field s_b]. destruct (Nat.eqb_spec (cell_b b) K) as [->|]; ring. }
  cbv zeta in H4. rewrite H4. clear H4.
  match goal with |- - (- (c K * (?A + ?Bd)) + (?U + ?L) + (c K * ?Bd' - ?C)) = ?W + ?C' =>
    assert (HW : W = c K * A - U - L) end.
  { unfold dS. rewrite <- integral_scal, <- !integral_minus. apply integral_ext. intros f _.
    unfold un_f, on. cbn [ind p0_field s_f]. ring. }
  rewrite HW. ring.
Qed.

Lemma bnd_bound : forall (c : nat -> R) uv elev K b lo,
  (forall L, lo <= c L) ->
  (forall tb v, t_bnd T (m_marker M b) = Some tb -> tb_value tb = Some v -> lo <= v b) ->
  - (inflow_b uv K b * (c K - lo)) <= bnd_change c uv K elev b.
Proof.
  intros c uv elev K b lo Hlo Hv. unfold bnd_change, inflow_b. set (q := unb M uv b).
  pose proof (Rmax_l 0 (- q)) as R3. pose proof (Hlo K) as HK.
  assert (HP : on K (cell_b b) = 0 \/ on K (cell_b b) = 1 /\ c (cell_b b) = c K).
  { unfold on. destruct (Nat.eqb_spec (cell_b b) K) as [<-|]; [right; split; reflexivity|left; reflexivity]. }
  destruct (t_bnd T (m_marker M b)) as [tb|].
  2:{ destruct HP as [->|[-> _]]; [lra|]. assert (0 <= Rmax 0 (- q) * (c K - lo)) by (apply Rmult_le_pos; lra). lra. }
  destruct HP as [->|[-> HP]]; [lra|]. rewrite HP.
  assert (Hce : lo <= c_ext tb (c K) b).
  { unfold c_ext. destruct (tb_value tb) as [v|] eqn:Ev; [apply (Hv tb v eq_refl Ev)|exact HK]. }
  destruct (Rtotal_order q 0) as [Hq|[Hq|Hq]].
  - rewrite (up_neg q Hq). assert (Rmax 0 (- q) = - q) as -> by (apply Rmax_right; lra).
    assert (Q1 : 0 <= (- q) * (c_ext tb (c K) b - lo)) by (apply Rmult_le_pos; lra). lra.
  - rewrite Hq. assert (0 <= Rmax 0 (- 0) * (c K - lo)).
    { apply Rmult_le_pos; [apply Rmax_l|lra]. } lra.
  - rewrite (up_pos q Hq). assert (Rmax 0 (- q) = 0) as -> by (apply Rmax_left; lra). lra.
Qed.

(** Lower bound; the upper bound follows by changing signs. *)
Lemma step_lower : forall dt (c : nat -> R) K lo (gf : F -> R) (gb : B -> R) (af : F -> R) (ab : B -> R),
  positive_weights M -> 0 <= dt -> 0 < area K -> lo <= c K ->
  dt * (dS M af + ds M ab) <= area K ->
  (forall f, In f (m_facets M) -> - (af f * (c K - lo)) <= gf f) ->
  (forall b, In b (m_bnds M) -> - (ab b * (c K - lo)) <= gb b) ->
  lo <= c K + dt / area K * (dS M gf + ds M gb).
Proof.
  intros dt c K lo gf gb af ab (_ & Hw2 & Hw3) Hdt Ha Hlo Hcfl Hf Hb.
  assert (I1 : dS M (fun f => - (af f * (c K - lo))) <= dS M gf).
  { apply integral_le; [intros f H; apply Rlt_le, Hw2, H|exact Hf]. }
  assert (I2 : ds M (fun f => - (ab f * (c K - lo))) <= ds M gb).
  { apply integral_le; [intros f H; apply Rlt_le, Hw3, H|exact Hb]. }
  assert (I3 : dS M (fun f => - (af f * (c K - lo))) = - ((c K - lo) * dS M af)).
  { unfold dS. rewrite <- integral_scal, <- integral_opp. apply integral_ext. intros; ring. }
  assert (I4 : ds M (fun f => - (ab f * (c K - lo))) = - ((c K - lo) * ds M ab)).
  { unfold ds. rewrite <- integral_scal, <- integral_opp. apply integral_ext. intros; ring. }
  rewrite I3 in I1. rewrite I4 in I2.
  set (S := dS M af + ds M ab) in *. set (G := dS M gf + ds M gb).
  assert (HG : - ((c K - lo) * S) <= G) by (unfold G, S; lra).
  assert (H1 : dt * (- ((c K - lo) * S)) <= dt * G) by (apply Rmult_le_compat_l; assumption).
  assert (H2 : (c K - lo) * (dt * S) <= (c K - lo) * area K) by (apply Rmult_le_compat_l; lra).
  assert (H3 : - (c K - lo) * area K <= dt * G) by lra.
  assert (H4 : - (c K - lo) <= dt / area K * G).
  { apply (Rmult_le_reg_r (area K)); [exact Ha|].
    replace (dt / area K * G * area K) with (dt * G) by (field; lra). exact H3. }
  lra.
Qed.

Lemma dS_ext : forall f h, (forall x, In x (m_facets M) -> f x = h x) -> dS M f = dS M h.
Proof. intros; apply integral_ext; assumption. Qed.
Lemma ds_ext : forall f h, (forall x, In x (m_bnds M) -> f x = h x) -> ds M f = ds M h.
Proof. intros; apply integral_ext; assumption. Qed.
End Tracer.

Section Bounds.
Context {V F B : Type}.
Variable E : swe_env V F B.
Variable T : tracer_env V F B.
Notation M := (e_mesh E).
Variable cell_v : V -> nat.
Variable cell_f : F -> bool -> nat.
Variable cell_b : B -> nat.

(** The maximum principle: if every cell value and every given boundary value
    lies in [lo, hi], so does every cell value after the step. *)
Theorem C50_maximum_principle : forall dt c uv elev K lo hi,
  positive_weights M -> 0 <= dt -> 0 < area E cell_v K -> t_dg T = true ->
  gauss_sv M (ind cell_v cell_f cell_b K) uv ->
  normal_continuous E uv -> consistent_bnd E T uv elev ->
  (forall f, 0 <= lax T f) ->
  cfl E T cell_v cell_f cell_b dt uv K ->
  (forall L, lo <= c L <= hi) ->
  (forall b tb v, t_bnd T (m_marker M b) = Some tb -> tb_value tb = Some v -> lo <= v b <= hi) ->
  lo <= euler_advection E T cell_v cell_f cell_b dt c uv elev K <= hi.
Proof.
  intros dt c uv elev K lo hi Hw Hdt Ha Hd Hg Hn Hb Hl Hcfl Hc Hv. unfold euler_advection.
  rewrite (advection_split E T cell_v cell_f cell_b c uv elev K Hd Hg Hb).
  split.
  - apply (step_lower E cell_v dt c K lo _ _ (inflow_f E T cell_f uv K) (inflow_b E cell_b uv K));
    try assumption; try (apply Hc).
    + intros f Hf. apply facet_bound; [apply Hn, Hf|apply Hl|apply Hc].
    + intros b Hin. apply bnd_bound; [apply Hc|]. intros tb v H1 H2. apply (Hv b tb v H1 H2).
  - set (c' := fun L => - c L).
    set (T' := mk_tenv (t_dg T) (t_lax T)
      (fun k => match t_bnd T k with
                | None => None
                | Some tb => Some (mk_tb (match tb_value tb with Some v => Some (fun b => - v b) | None => None end)
                                     (tb_uv tb) (tb_elev tb) (tb_diff_flux tb))
                end) (t_mu T) (t_sigma_f T) (t_source T) (t_sign0 T)).
    assert (H : - hi <= c' K + dt / area E cell_v K *
       (dS M (fun f => (c' K - (c' (cell_f f false) * up_s T' (un_av E uv f)
             + c' (cell_f f true) * (1 - up_s T' (un_av E uv f))))
     * (on K (cell_f f true) * un_f E uv f true + on K (cell_f f false) * un_f E uv f false)
     - lax T' f * ((on K (cell_f f true) - on K (cell_f f false))
                * (c' (cell_f f true) - c' (cell_f f false))))
        + ds M (bnd_change E T' cell_b c' uv K elev))).
    { assert (Hc' : forall L, - hi <= c' L) by (intro L; unfold c'; specialize (Hc L); lra).
      apply (step_lower E cell_v dt c' K (- hi) _ _ (inflow_f E T' cell_f uv K) (inflow_b E cell_b uv K));
      try assumption; try (apply Hc').
      + intros f Hf. apply facet_bound; [apply Hn, Hf|apply Hl|exact Hc'].
      + intros b Hin. apply bnd_bound; [exact Hc'|]. intros tb v H1 H2.
        cbn [T' t_bnd] in H1. destruct (t_bnd T (m_marker M b)) as [tb0|] eqn:Eb; [|discriminate].
        injection H1 as <-. cbn [tb_value] in H2. destruct (tb_value tb0) as [v0|] eqn:Ev; [|discriminate].
        injection H2 as <-. destruct (Hv b tb0 v0 Eb Ev) as (_ & H). lra. }
    match type of H with _ <= _ + _ * (?X + ?Y) =>
      match goal with |- _ + _ * (?X' + ?Y') <= _ =>
        assert (HX : X = - X'); [|assert (HY : Y = - Y')] end end.
    + unfold dS. rewrite <- integral_opp. apply integral_ext. intros f _. unfold c'.
      change (lax T' f) with (lax T f). change (up_s T' (un_av E uv f)) with (up_s T (un_av E uv f)). ring.
    + unfold ds. rewrite <- integral_opp. apply integral_ext. intros b _. unfold bnd_change.
      cbn [T' t_bnd]. destruct (t_bnd T (m_marker M b)) as [tb0|]; [|ring].
      change (up_s T' (unb M uv b)) with (up_s T (unb M uv b)). unfold c', c_ext. cbn [tb_value].
      destruct (tb_value tb0); ring.
    + rewrite HX, HY in H. unfold c' in H. lra.
Qed.

(** Conservative form: non-negative amounts stay non-negative under the same kind
    of condition, now on the outflow. *)
Definition outflow_f uv (K : nat) (f : F) : R :=
  on K (cell_f f true) * (Rmax 0 (un_f E uv f true) + lax T f)
  + on K (cell_f f false) * (Rmax 0 (un_f E uv f false) + lax T f).
Definition outflow_b (uv : vfield V F B) (K : nat) (b : B) : R := on K (cell_b b) * Rmax 0 (unb M uv b).

Theorem C50_conservative_positive : forall dt c uv elev K,
  positive_weights M -> 0 <= dt -> 0 < area E cell_v K -> t_dg T = true ->
  normal_continuous E uv -> consistent_bnd E T uv elev ->
  (forall f, 0 <= lax T f) ->
  dt * (dS M (outflow_f uv K) + ds M (outflow_b uv K)) <= area E cell_v K ->
  (forall L, 0 <= c L) ->
  (forall b tb v, t_bnd T (m_marker M b) = Some tb -> tb_value tb = Some v -> 0 <= v b) ->
  0 <= euler_conservative E T cell_v cell_f cell_b dt c uv elev K.
Proof.
  intros dt c uv elev K Hw Hdt Ha Hd Hn Hb Hl Hcfl Hc Hv. unfold euler_conservative, cons_advection.
  rewrite Hd.
  rewrite (dx_zero M).
  2:{ intros p _. cbn [ind p0_field s_gv]. rewrite dot2_zero_l. ring. }
  assert (H3 : match t_lax T with
            | None => 0
            | Some (lf, speed) =>
                dS M (fun f => 0.5 * speed f * lf * (jump (s_f (ind cell_v cell_f cell_b K) f)
                                * jump (s_f (p0_field cell_v cell_f cell_b c) f)))
            end = dS M (fun f => lax T f * ((on K (cell_f f true) - on K (cell_f f false))
                * (c (cell_f f true) - c (cell_f f false))))).
  { unfold lax. destruct (t_lax T) as [[lf sp]|].
    - apply integral_ext. intros f _. reflexivity.
    - symmetry. apply dS_zero. intros f _. ring. }
  rewrite H3. clear H3.
  match goal with |- 0 <= _ + _ * - (- 0 + (dS M ?X + dS M ?L) + ds M ?Y) =>
    assert (HH : 0 <= c K + dt / area E cell_v K * (dS M (fun f => - X f - L f) + ds M (fun b => - Y b))) end.
  2:{ match goal with |- 0 <= _ + _ * - (- 0 + (dS M ?X + dS M ?L) + ds M ?Y) =>
        assert (H1 : dS M (fun f => - X f - L f) = - dS M X - dS M L);
        [unfold dS; rewrite <- integral_opp, <- integral_minus; reflexivity|];
        assert (H2 : ds M (fun b => - Y b) = - ds M Y) by (unfold ds; rewrite <- integral_opp; reflexivity) end.
      cbv beta zeta in HH, H1, H2. rewrite H1, H2 in HH.
      match goal with |- 0 <= _ + _ * ?Z => match type of HH with 0 <= _ + _ * ?W =>
        replace Z with W by ring end end. exact HH. }
  apply (step_lower E cell_v dt c K 0 _ _ (outflow_f uv K) (outflow_b uv K)); try assumption; try apply Hc.
  - intros f Hf. cbv beta zeta. rewrite Rminus_0_r. rewrite (un_av_eq E uv f (Hn f Hf)).
    specialize (Hn f Hf). specialize (Hl f).
    assert (HJ : dot2
       (add2 (scal2 (s_f (p0_field cell_v cell_f cell_b c) f false * up_s T (un_f E uv f false)) (vf uv f false))
          (scal2 (s_f (p0_field cell_v cell_f cell_b c) f true * (1 - up_s T (un_f E uv f false))) (vf uv f true)))
       (jump_n M (ind cell_v cell_f cell_b K) f)
      = (on K (cell_f f false) - on K (cell_f f true))
        * (c (cell_f f false) * up_s T (un_f E uv f false) * un_f E uv f false
           - c (cell_f f true) * (1 - up_s T (un_f E uv f false)) * un_f E uv f true)).
    { cbn [p0_field s_f]. generalize (up_s T (un_f E uv f false)). intro s.
      unfold jump_n, ind, p0_field, on, un_f, normal, dot2, add2, scal2, vf; cbn [s_f fst snd]. ring. }
    rewrite HJ. clear HJ. rewrite Hn. unfold outflow_f. rewrite Hn.
    set (q := un_f E uv f false). set (cp := c (cell_f f true)). set (cm := c (cell_f f false)).
    pose proof (Hc (cell_f f true)) as Hp. fold cp in Hp.
    pose proof (Hc (cell_f f false)) as Hm. fold cm in Hm.
    pose proof (Hc K) as HK.
    assert (HP : on K (cell_f f true) = 0 \/ on K (cell_f f true) = 1 /\ cp = c K).
    { unfold on, cp. destruct (Nat.eqb_spec (cell_f f true) K) as [<-|]; [right; split; reflexivity|left; reflexivity]. }
    assert (HM : on K (cell_f f false) = 0 \/ on K (cell_f f false) = 1 /\ cm = c K).
    { unfold on, cm. destruct (Nat.eqb_spec (cell_f f false) K) as [<-|]; [right; split; reflexivity|left; reflexivity]. }
    set (l := lax T f) in *.
    assert (L1 : 0 <= l * cp) by (apply Rmult_le_pos; lra).
    assert (L2 : 0 <= l * cm) by (apply Rmult_le_pos; lra).
    destruct (Rtotal_order q 0) as [Hq|[Hq|Hq]].
    + rewrite (up_neg T q Hq).
      assert (Rmax 0 q = 0) as -> by (apply Rmax_left; lra).
      assert (Rmax 0 (- q) = - q) as -> by (apply Rmax_right; lra).
      assert (Q1 : 0 <= (- q) * cp) by (apply Rmult_le_pos; lra).
      destruct HP as [->|[-> HP]]; destruct HM as [->|[-> HM]]; try rewrite HP in *; try rewrite HM in *; lra.
    + rewrite Hq, Ropp_0. assert (Rmax 0 0 = 0) as -> by (apply Rmax_left; lra).
      destruct HP as [->|[-> HP]]; destruct HM as [->|[-> HM]]; try rewrite HP in *; try rewrite HM in *; lra.
    + rewrite (up_pos T q Hq).
      assert (Rmax 0 q = q) as -> by (apply Rmax_right; lra).
      assert (Rmax 0 (- q) = 0) as -> by (apply Rmax_left; lra).
      assert (Q1 : 0 <= q * cm) by (apply Rmult_le_pos; lra).
      destruct HP as [->|[-> HP]]; destruct HM as [->|[-> HM]]; try rewrite HP in *; try rewrite HM in *; lra.
  - intros b Hin. cbv beta zeta. rewrite Rminus_0_r. unfold outflow_b.
    specialize (Hb b Hin). set (q := unb M uv b) in *. pose proof (Hc K) as HK.
    assert (HP : on K (cell_b b) = 0 \/ on K (cell_b b) = 1 /\ c (cell_b b) = c K).
    { unfold on. destruct (Nat.eqb_spec (cell_b b) K) as [<-|]; [right; split; reflexivity|left; reflexivity]. }
    assert (Q0 : 0 <= Rmax 0 q * c K) by (apply Rmult_le_pos; [apply Rmax_l|exact HK]).
    assert (Q1 : q * c K <= Rmax 0 q * c K) by (apply Rmult_le_compat_r; [exact HK|apply Rmax_r]).
    pose proof (Hv b) as Hvb.
    destruct (t_bnd T (m_marker M b)) as [tb|].
    + assert (dot2 (scal2 0.5 (add2 (vb uv b) (tuv_ext E tb (s_b elev) (vb uv) b))) (m_nb M b) = q) as ->.
      { transitivity (0.5 * (unb M uv b + dot2 (tuv_ext E tb (s_b elev) (vb uv) b) (m_nb M b))).
        - unfold unb, dot2, scal2, add2; cbn [fst snd]. ring.
        - rewrite (Hb tb eq_refl). apply half_plus. }
      assert (HJ : forall x y, dot2 (add2 (scal2 x (vb uv b)) (scal2 y (tuv_ext E tb (s_b elev) (vb uv) b))) (m_nb M b)
                   = (x + y) * q).
      { intros x y. transitivity (x * unb M uv b + y * dot2 (tuv_ext E tb (s_b elev) (vb uv) b) (m_nb M b)).
        - unfold unb, dot2, scal2, add2; cbn [fst snd]. ring.
        - rewrite (Hb tb eq_refl). unfold q. ring. }
      rewrite HJ. clear HJ. cbn [ind p0_field s_b]. fold (on K (cell_b b)).
      destruct HP as [->|[-> HP]]; [lra|]. rewrite HP.
      assert (Hce : 0 <= c_ext tb (c K) b).
      { unfold c_ext. destruct (tb_value tb) as [v|] eqn:Ev; [apply (Hvb tb v eq_refl Ev)|exact HK]. }
      destruct (Rtotal_order q 0) as [Hq|[Hq|Hq]].
      * rewrite (up_neg T q Hq). assert (0 <= (- q) * c_ext tb (c K) b) by (apply Rmult_le_pos; lra). lra.
      * rewrite Hq. rewrite Hq in Q0. lra.
      * rewrite (up_pos T q Hq). lra.
    + cbn [ind p0_field s_b]. fold (on K (cell_b b)). destruct HP as [->|[-> HP]]; [lra|]. rewrite HP. lra.
Qed.

(** Diffusion of piecewise constants obeys the maximum principle too. *)
Definition exchange_f (mu : sfield V F B) (K : nat) (f : F) : R :=
  (on K (cell_f f true) + on K (cell_f f false)) * (psig T f * avg (s_f mu f)).

Theorem C50_diffusion_maximum_principle : forall mu dt c uv elev K lo hi,
  positive_weights M -> unit_normals M -> 0 <= dt -> 0 < area E cell_v K -> t_dg T = true ->
  t_mu T = Some mu -> (forall k, t_bnd T k = None) ->
  (forall f, 0 <= psig T f * avg (s_f mu f)) ->
  dt * dS M (exchange_f mu K) <= area E cell_v K ->
  (forall L, lo <= c L <= hi) ->
  lo <= euler_diffusion E T cell_v cell_f cell_b dt c uv elev K <= hi.
Proof.
  intros mu dt c uv elev K lo hi Hw (Hu & _) Hdt Ha Hd Hm Hn Hp Hcfl Hc.
  unfold euler_diffusion, tracer_diffusion. rewrite Hm, Hd.
  rewrite (dx_zero M).
  2:{ intros p _. cbn [ind p0_field s_gv]. apply dot2_zero_l. }
  rewrite (ds_zero M (fun b => match t_bnd T (m_marker M b) with | Some _ => _ | None => 0 end)).
  2:{ intros b _. rewrite (Hn (m_marker M b)). reflexivity. }
  assert (HX : forall k : R,
    dS M (fun f => psig T f * avg (s_f mu f) * ((on K (cell_f f true) - on K (cell_f f false))
            * (k * c (cell_f f true) - k * c (cell_f f false)))) = k *
    dS M (fun f =>
      (if Rgt_dec (t_sigma_f T f true) (t_sigma_f T f false) then t_sigma_f T f true else t_sigma_f T f false)
      * dot2 (jump_n M (ind cell_v cell_f cell_b K) f)
          (scal2 (avg (s_f mu f)) (jump_n M (p0_field cell_v cell_f cell_b c) f))
      - dot2 (scal2 0.5 (add2 (scal2 (s_f mu f true) (s_gf (ind cell_v cell_f cell_b K) f true))
                             (scal2 (s_f mu f false) (s_gf (ind cell_v cell_f cell_b K) f false))))
          (jump_n M (p0_field cell_v cell_f cell_b c) f)
      - dot2 (jump_n M (ind cell_v cell_f cell_b K) f)
          (scal2 0.5 (add2 (scal2 (s_f mu f true) (s_gf (p0_field cell_v cell_f cell_b c) f true))
                         (scal2 (s_f mu f false) (s_gf (p0_field cell_v cell_f cell_b c) f false)))))).
  { intro k. unfold dS. rewrite <- integral_scal. apply integral_ext. intros f Hf.
    specialize (Hu f Hf). fold (psig T f). cbn [ind p0_field s_gf].
    assert (scal2 0.5 (add2 (scal2 (s_f mu f true) (0, 0)) (scal2 (s_f mu f false) (0, 0))) = (0, 0)) as ->.
    { unfold scal2, add2; cbn [fst snd]; f_equal; ring. }
    rewrite dot2_zero_l, dot2_zero_r. 
    unfold jump_n, normal, scal2, dot2, ind, p0_field, on in *; cbn [s_f fst snd] in *.
    set (n1 := fst (m_nf M f)) in *. set (n2 := snd (m_nf M f)) in *.
    set (P := if Nat.eqb (cell_f f true) K then 1 else 0).
    set (Q := if Nat.eqb (cell_f f false) K then 1 else 0).
    transitivity (k * (psig T f * avg (s_f mu f) * ((P - Q) * (c (cell_f f true) - c (cell_f f false)))
                       * (n1 * n1 + n2 * n2))); [rewrite Hu|]; ring. }
  assert (Hgen : forall (k lo' : R), (k = 1 \/ k = -1) -> (forall L, lo' <= k * c L) ->
     lo' <= k * c K + dt / area E cell_v K * (- (dS M (fun f => psig T f * avg (s_f mu f) *
       ((on K (cell_f f true) - on K (cell_f f false))
            * (k * c (cell_f f true) - k * c (cell_f f false))))))).
  { intros k lo' Hk Hlo.
    assert (HH : lo' <= k * c K + dt / area E cell_v K *
      (dS M (fun f => - (psig T f * avg (s_f mu f) *
       ((on K (cell_f f true) - on K (cell_f f false))
            * (k * c (cell_f f true) - k * c (cell_f f false))))) + ds M (fun _ => 0))).
    { apply (step_lower E cell_v dt (fun L => k * c L) K lo' _ _ (exchange_f mu K) (fun _ => 0));
      try assumption; try apply Hlo.
      - rewrite (ds_zero M); [|reflexivity]. rewrite Rplus_0_r. exact Hcfl.
      - intros f Hf. unfold exchange_f. specialize (Hp f). set (x := psig T f * avg (s_f mu f)) in *.
        pose proof (Hlo (cell_f f true)) as H1. pose proof (Hlo (cell_f f false)) as H2.
        pose proof (Hlo K) as H3.
        set (cp := k * c (cell_f f true)) in *. set (cm := k * c (cell_f f false)) in *.
        assert (HP : on K (cell_f f true) = 0 \/ on K (cell_f f true) = 1 /\ cp = k * c K).
        { unfold on, cp. destruct (Nat.eqb_spec (cell_f f true) K) as [<-|]; [right; split; reflexivity|left; reflexivity]. }
        assert (HM : on K (cell_f f false) = 0 \/ on K (cell_f f false) = 1 /\ cm = k * c K).
        { unfold on, cm. destruct (Nat.eqb_spec (cell_f f false) K) as [<-|]; [right; split; reflexivity|left; reflexivity]. }
        assert (X1 : 0 <= x * (cp - lo')) by (apply Rmult_le_pos; lra).
        assert (X2 : 0 <= x * (cm - lo')) by (apply Rmult_le_pos; lra).
        assert (X3 : 0 <= x * (k * c K - lo')) by (apply Rmult_le_pos; lra).
        destruct HP as [->|[-> HP]]; destruct HM as [->|[-> HM]];
        try rewrite HP in *; try rewrite HM in *; lra.
      - intros b _. lra. }
    rewrite (ds_zero M) in HH by reflexivity. unfold dS in HH. rewrite integral_opp in HH.
    rewrite Rplus_0_r in HH. exact HH. }
  split.
  - assert (H := Hgen 1 lo (or_introl eq_refl)). rewrite (HX 1) in H.
    specialize (H (fun L => ltac:(specialize (Hc L); lra))). rewrite !Rmult_1_l in H.
    rewrite Rplus_0_l, Rplus_0_r. exact H.
  - assert (H := Hgen (-1) (- hi) (or_intror eq_refl)). rewrite (HX (-1)) in H.
    specialize (H (fun L => ltac:(specialize (Hc L); lra))).
    rewrite Rplus_0_l, Rplus_0_r. lra.
Qed.
End Bounds.

Print Assumptions C50_maximum_principle.
Print Assumptions C50_conservative_budget.
