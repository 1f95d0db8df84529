(** C89: lemmas about changes of axes, sides and order on an extruded mesh. *)
From Coq Require Import Reals List Bool Lra Permutation FunctionalExtensionality.
From Verif Require Import Frame_Spec Forms_Model Forms_Proofs Frame_Proofs Forms3d_Model Mom3d_Model Frame3d_Spec.
Open Scope R_scope.

Lemma v3_ext : forall a b : v3, c0 a = c0 b -> c1 a = c1 b -> c2 a = c2 b -> a = b.
Proof. intros [a1 a2 a3] [b1 b2 b3]; cbn; intros -> -> ->; reflexivity. Qed.

(** the horizontal part of a vector *)
Definition h2 (a : v3) : R * R := (c0 a, c1 a).
Lemma doth_h2 : forall a b, doth a b = dot2 (h2 a) (h2 b). Proof. reflexivity. Qed.
Lemma dot3_h2 : forall a b, dot3 a b = dot2 (h2 a) (h2 b) + c2 a * c2 b. Proof. reflexivity. Qed.

Section Frame3d.
Context {V F E : Type}.
Variable w : view V F E.
Hypothesis Hw : proper w.
Notation Q := (w_q w).
Notation tv := (turn_v3 w).
Notation ts := (turn_s3 w).
Notation a3 := (act3 w).

Lemma HO : orthogonal Q. Proof. exact (proj1 Hw). Qed.
Lemma h2_act : forall a, h2 (a3 a) = act Q (h2 a). Proof. reflexivity. Qed.
Lemma c2_act : forall a, c2 (a3 a) = c2 a. Proof. reflexivity. Qed.
Lemma act_doth : forall a b, doth (a3 a) (a3 b) = doth a b.
Proof. intros. rewrite !doth_h2, !h2_act. apply act_dot, HO. Qed.
Lemma act_dot3 : forall a b, dot3 (a3 a) (a3 b) = dot3 a b.
Proof. intros. rewrite !dot3_h2, !h2_act, (act_dot Q HO). reflexivity. Qed.
Lemma a3_add : forall a b, add3 (a3 a) (a3 b) = a3 (add3 a b).
Proof. intros [a1 a2 a4] [b1 b2 b4]. apply v3_ext; cbn; ring. Qed.
Lemma a3_sub : forall a b, sub3 (a3 a) (a3 b) = a3 (sub3 a b).
Proof. intros [a1 a2 a4] [b1 b2 b4]. apply v3_ext; cbn; ring. Qed.
Lemma a3_scal : forall k a, scal3 k (a3 a) = a3 (scal3 k a).
Proof. intros k [a1 a2 a4]. apply v3_ext; cbn; ring. Qed.
Lemma a3_hflux : forall k a, hflux k (a3 a) = a3 (hflux k a).
Proof. intros k [a1 a2 a4]. apply v3_ext; cbn; ring. Qed.

Lemma t_val_v : forall u p, val_v (tv u) p = a3 (val_v u p). Proof. reflexivity. Qed.
Lemma t_val_f : forall u f s, val_f (tv u) f s = a3 (val_f u f (old w f s)). Proof. reflexivity. Qed.
Lemma t_val_e : forall u e, val_e (tv u) e = a3 (val_e u e). Proof. reflexivity. Qed.
Lemma t_nrm : forall M f s, nrm (turn_mesh3 w M) f s = a3 (nrm M f (old w f s)).
Proof.
  intros M f s. unfold nrm at 1. cbn [turn_mesh3 g_nf]. unfold old.
  destruct s; [reflexivity|]. destruct (w_swap w f); cbn [xorb nrm]; apply v3_ext; cbn; ring.
Qed.
Lemma t_ne : forall M e, g_ne (turn_mesh3 w M) e = a3 (g_ne M e). Proof. reflexivity. Qed.
Lemma t_old_add : forall (g : bool -> v3) f, add3 (g (old w f true)) (g (old w f false)) = add3 (g true) (g false).
Proof. intros g f. unfold old. destruct (w_swap w f); apply v3_ext; cbn; ring. Qed.
Lemma t_avg3 : forall u f, avg3 (tv u) f = a3 (avg3 u f).
Proof. intros. unfold avg3. rewrite !t_val_f, a3_add, a3_scal. do 2 f_equal. exact (t_old_add (val_f u f) f). Qed.
Lemma t_jump3 : forall M q f, jump3 (turn_mesh3 w M) (ts q) f = a3 (jump3 M q f).
Proof.
  intros M q f. unfold jump3. rewrite !t_nrm. cbn [turn_s3 a_f]. rewrite !a3_scal, a3_add. f_equal.
  exact (t_old_add (fun s => scal3 (a_f q f s) (nrm M f s)) f).
Qed.
Lemma t_avg : forall (q : sfield3 V F E) f, avg (a_f (ts q) f) = avg (a_f q f).
Proof. intros. exact (old_avg w (a_f q f) f). Qed.
(** a jump along the normal *)
Lemma jump3_n : forall (M : mesh3 V F E) q f, jump3 M q f = scal3 (a_f q f true - a_f q f false) (nrm M f true).
Proof. intros. apply v3_ext; cbn; ring. Qed.

(** facets in components: f_nabla for the mixture *)
Lemma jump3_mix : forall (M : mesh3 V F E) a b q r f,
  jump3 M (mix3 a b q r) f = add3 (scal3 a (jump3 M q f)) (scal3 b (jump3 M r f)).
Proof. intros. apply v3_ext; cbn; ring. Qed.

Lemma t_dx : forall M g h, (forall p, g p = h p) -> dx3 (turn_mesh3 w M) g = dx3 M h.
Proof. intros M g h H. apply (integral_both (g_cells M)); [apply Hw|intros; apply H]. Qed.
Lemma t_dSh : forall M g h, (forall f, g f = h f) -> dS_h (turn_mesh3 w M) g = dS_h M h.
Proof. intros M g h H. apply (integral_both (g_hor M)); [apply Hw|intros; apply H]. Qed.
Lemma t_dSv : forall M g h, (forall f, g f = h f) -> dS_v (turn_mesh3 w M) g = dS_v M h.
Proof. intros M g h H. apply (integral_both (g_ver M)); [apply Hw|intros; apply H]. Qed.
Lemma t_surf : forall M g h, (forall e, g e = h e) -> ds_surf (turn_mesh3 w M) g = ds_surf M h.
Proof. intros M g h H. apply (integral_both (g_surf M)); [apply Hw|intros; apply H]. Qed.
Lemma t_bot : forall M g h, (forall e, g e = h e) -> ds_bottom (turn_mesh3 w M) g = ds_bottom M h.
Proof. intros M g h H. apply (integral_both (g_bot M)); [apply Hw|intros; apply H]. Qed.
Lemma t_lat : forall M g h, (forall e, g e = h e) -> ds_lat (turn_mesh3 w M) g = ds_lat M h.
Proof. intros M g h H. apply (integral_both (g_lat M)); [apply Hw|intros; apply H]. Qed.

Lemma add_turn_s : forall q r, add_s (ts q) (ts r) = ts (add_s q r).
Proof.
  intros. unfold add_s, turn_s3; cbn [a_v a_gv a_f a_gf a_e a_ge].
  f_equal; repeat (apply functional_extensionality; intro); apply a3_add.
Qed.
Lemma sub_turn_s : forall q r, sub_s (ts q) (ts r) = ts (sub_s q r).
Proof.
  intros. unfold sub_s, turn_s3; cbn [a_v a_gv a_f a_gf a_e a_ge].
  f_equal; repeat (apply functional_extensionality; intro); apply a3_sub.
Qed.
Lemma add_mix : forall a b (q r q' r' : sfield3 V F E), add_s (mix3 a b q r) (mix3 a b q' r') = mix3 a b (add_s q q') (add_s r r').
Proof.
  intros. unfold add_s, mix3; cbn [a_v a_gv a_f a_gf a_e a_ge].
  f_equal; repeat (apply functional_extensionality; intro); try apply v3_ext; cbn; ring.
Qed.
Lemma add_turn_v : forall u d, add_v (tv u) (tv d) = tv (add_v u d).
Proof. intros. unfold add_v, turn_v3; cbn [w_x w_y w_z]. rewrite !add_mix, !add_turn_s. reflexivity. Qed.

Lemma t_abs_un : forall (M : mesh3 V F E) u f,
  Rabs (doth (avg3 (tv u) f) (nrm (turn_mesh3 w M) f false)) = Rabs (doth (avg3 u f) (nrm M f false)).
Proof.
  intros M u f. rewrite t_avg3, t_nrm, act_doth. unfold old. destruct (w_swap w f); cbn [xorb]; [|reflexivity].
  rewrite <- Rabs_Ropp. f_equal. unfold doth, nrm, opp3; cbn; ring.
Qed.
Lemma t_un : forall M u f, doth (avg3 (tv u) f) (nrm (turn_mesh3 w M) f false)
  = if w_swap w f then - doth (avg3 u f) (nrm M f false) else doth (avg3 u f) (nrm M f false).
Proof.
  intros M u f. rewrite t_avg3, t_nrm, act_doth. unfold old. destruct (w_swap w f); cbn [xorb]; [|reflexivity].
  unfold doth, nrm, opp3; cbn; ring.
Qed.
Lemma t_wn : forall (M : mesh3 V F E) f, c2 (nrm (turn_mesh3 w M) f false) = if w_swap w f then - c2 (nrm M f false) else c2 (nrm M f false).
Proof. intros. rewrite t_nrm, c2_act. unfold old. destruct (w_swap w f); cbn; ring. Qed.
Lemma t_abs_wn : forall (M : mesh3 V F E) f k, Rabs (k * c2 (nrm (turn_mesh3 w M) f false)) = Rabs (k * c2 (nrm M f false)).
Proof.
  intros. rewrite t_wn. destruct (w_swap w f); [|reflexivity]. rewrite <- Rabs_Ropp. f_equal. ring.
Qed.

(** The upwind value times what is zero when the upwinding speed is zero. *)
Section Upwind.
Variable s0 : R.
Notation sg := (fun x => if Rlt_dec 0 x then 1 else if Rlt_dec x 0 then -1 else s0).
Notation U := (fun x => 0.5 * ((if Rlt_dec 0 x then 1 else if Rlt_dec x 0 then -1 else s0) + 1)).
Lemma U_odd : forall x, x <> 0 \/ s0 = 0 -> U (- x) = 1 - U x.
Proof. intros x H. cbn beta. destruct (Rlt_dec 0 x), (Rlt_dec x 0), (Rlt_dec 0 (- x)), (Rlt_dec (- x) 0); lra. Qed.
Lemma upwind_same : forall (g : bool -> R) f x y, (x = 0 -> y = 0) \/ s0 = 0 ->
  let x' := if w_swap w f then - x else x in
  (g (old w f false) * U x' + g (old w f true) * (1 - U x')) * y = (g false * U x + g true * (1 - U x)) * y.
Proof.
  intros g f x y H. cbn zeta. unfold old. destruct (w_swap w f); cbn [xorb]; [|reflexivity].
  destruct (Req_dec x 0) as [Hx|Hx].
  - destruct H as [H|H]; [rewrite (H Hx); ring|]. pose proof (U_odd x (or_intror H)) as HU; cbn beta in HU. rewrite HU. ring.
  - pose proof (U_odd x (or_introl Hx)) as HU; cbn beta in HU. rewrite HU. ring.
Qed.
End Upwind.

(* ------------------------------------------------------------------ *)
(** ** Tracers *)
Section Tracer.
Variable M : mesh3 V F E.
Variable K : tenv3 V F E.
Notation M' := (turn_mesh3 w M).
Notation K' := (turn_tenv3 w K).

Lemma t_full : full_uv K' = option_map tv (full_uv K).
Proof.
  unfold full_uv. cbn [turn_tenv3 k_uv k_dav]. destruct (k_uv K), (k_dav K); cbn [option_map]; try reflexivity.
  rewrite add_turn_v. reflexivity.
Qed.
Lemma t_vertvelo : vertvelo K' = option_map ts (vertvelo K).
Proof.
  unfold vertvelo. cbn [turn_tenv3 k_w k_wmesh]. destruct (k_w K), (k_wmesh K); cbn [option_map]; try reflexivity.
  rewrite sub_turn_s. reflexivity.
Qed.

Lemma t_adv_lat : forall phi c uv e, adv_lat M' K' (ts phi) (ts c) (tv uv) e = adv_lat M K phi c uv e.
Proof.
  intros. unfold adv_lat. cbn [turn_tenv3 k_bnd]. change (g_marker M' e) with (g_marker M e).
  destruct (k_bnd K (g_marker M e)) as [tb|]; [|reflexivity]. cbn [option_map].
  assert (HE : ext_uv M' (turn_tb3 w tb) (a3 (val_e uv e)) e = a3 (ext_uv M tb (val_e uv e) e)).
  { unfold ext_uv. cbn [turn_tb3 x_uv]. destruct (x_uv tb); cbn [turn_xuv]; [reflexivity|reflexivity|].
    rewrite t_ne. apply a3_scal. }
  rewrite t_val_e, HE, a3_add, a3_scal, t_ne, !act_doth. reflexivity.
Qed.

Lemma sides_zero : forall (u : vfield3 V F E) f (x : v3), (forall s, a_f (w_z u) f s = 0) ->
  doth (avg3 u f) (nrm M f false) = 0 -> x = nrm M f true -> dot3 (avg3 u f) x = 0.
Proof.
  intros u f x Hz H ->.
  assert (Z : c2 (avg3 u f) = 0) by (cbn; rewrite !Hz; lra).
  unfold dot3. rewrite Z. unfold doth, nrm, opp3 in H. cbn [c0 c1 c2] in H. unfold nrm. lra.
Qed.

Lemma t_hor_adv : forall phi c, horizontal_uv K -> hor_adv M' K' (ts phi) (ts c) = hor_adv M K phi c.
Proof.
  intros phi c HK. unfold hor_adv. rewrite t_full. destruct (full_uv K) as [u|] eqn:Eu; [|reflexivity]. cbn [option_map].
  change (k_hdg K') with (k_hdg K). change (k_lax K') with (k_lax K). change (k_symm K') with (k_symm K). cbv zeta.
  assert (FL : forall f, c_up K' (ts c) f (doth (avg3 (tv u) f) (nrm M' f false)) * dot3 (avg3 (tv u) f) (jump3 M' (ts phi) f)
             = c_up K c f (doth (avg3 u f) (nrm M f false)) * dot3 (avg3 u f) (jump3 M phi f)).
  { intro f. rewrite t_un, t_avg3, t_jump3, act_dot3. unfold c_up, upw, sgn. change (k_sign0 K') with (k_sign0 K). cbn [turn_s3 a_f].
    apply (upwind_same (k_sign0 K) (a_f c f) f). destruct HK as [H0|HZ]; [right; exact H0|left]. intro Hx.
    rewrite jump3_n. unfold dot3, scal3; cbn [c0 c1 c2].
    pose proof (sides_zero u f _ (fun s => HZ u f s Eu) Hx eq_refl) as HS. unfold dot3 in HS.
    transitivity ((a_f phi f true - a_f phi f false) * (c0 (avg3 u f) * c0 (nrm M f true) + c1 (avg3 u f) * c1 (nrm M f true)
      + c2 (avg3 u f) * c2 (nrm M f true))); [ring|rewrite HS; ring]. }
  assert (LX : forall lf f, 0.5 * Rabs (doth (avg3 (tv u) f) (nrm M' f false)) * lf * (jump (a_f (ts phi) f) * jump (a_f (ts c) f))
             = 0.5 * Rabs (doth (avg3 u f) (nrm M f false)) * lf * (jump (a_f phi f) * jump (a_f c f))).
  { intros lf f. rewrite t_abs_un. f_equal. exact (old_jump2 w (a_f phi f) (a_f c f) f). }
  do 2 f_equal; [f_equal|].
  - f_equal. apply t_dx. intro p. rewrite t_val_v. cbn [turn_s3 a_v a_gv]. rewrite act_dot3. reflexivity.
  - destruct (k_hdg K); [|reflexivity]. f_equal; [f_equal|].
    + f_equal; [apply t_dSv; exact FL|apply t_dSh; exact FL].
    + destruct (k_lax K) as [lf|]; [|reflexivity]. f_equal; [apply t_dSv; apply LX|apply t_dSh; apply LX].
    + apply t_lat. intro e. apply t_adv_lat.
  - destruct (k_symm K); [|reflexivity]. apply t_surf. intro e. rewrite t_val_e, t_ne, act_doth. reflexivity.
Qed.

Lemma t_ver_adv : forall phi c, ver_adv M' K' (ts phi) (ts c) = ver_adv M K phi c.
Proof.
  intros phi c. unfold ver_adv. rewrite t_vertvelo. destruct (vertvelo K) as [v|]; [|reflexivity]. cbn [option_map].
  change (k_vdg K') with (k_vdg K). change (k_lax K') with (k_lax K). cbv zeta.
  do 2 f_equal; [f_equal|].
  - f_equal. apply t_dx. reflexivity.
  - destruct (k_vdg K); [|reflexivity]. f_equal.
    + apply t_dSh. intro f. rewrite t_avg, t_wn, t_jump3, c2_act, !Rmult_assoc.
      unfold c_up, upw, sgn. change (k_sign0 K') with (k_sign0 K). cbn [turn_s3 a_f].
      replace (avg (a_f v f) * (if w_swap w f then - c2 (nrm M f false) else c2 (nrm M f false)))
        with (if w_swap w f then - (avg (a_f v f) * c2 (nrm M f false)) else avg (a_f v f) * c2 (nrm M f false))
        by (destruct (w_swap w f); ring).
      apply (upwind_same (k_sign0 K) (a_f c f) f). left. intro Hx. rewrite jump3_n. cbn [scal3 c2].
      transitivity (- (a_f phi f true - a_f phi f false) * (avg (a_f v f) * c2 (nrm M f false))); [unfold nrm, opp3; cbn [c2]; ring|rewrite Hx; ring].
    + destruct (k_lax K) as [lf|]; [|reflexivity]. apply t_dSh. intro f. rewrite t_avg, t_abs_wn. f_equal.
      exact (old_jump2 w (a_f phi f) (a_f c f) f).
  - apply t_surf. reflexivity.
Qed.

Lemma t_max : forall (g : F -> bool -> R) k f,
  (if Rgt_dec (k * turn_side w g f true) (k * turn_side w g f false) then k * turn_side w g f true else k * turn_side w g f false)
  = (if Rgt_dec (k * g f true) (k * g f false) then k * g f true else k * g f false).
Proof.
  intros. unfold turn_side, old. destruct (w_swap w f); cbn [xorb]; [|reflexivity].
  destruct (Rgt_dec (k * g f false) (k * g f true)), (Rgt_dec (k * g f true) (k * g f false)); lra.
Qed.
Lemma t_max1 : forall (g : F -> bool -> R) f,
  (if Rgt_dec (turn_side w g f true) (turn_side w g f false) then turn_side w g f true else turn_side w g f false)
  = (if Rgt_dec (g f true) (g f false) then g f true else g f false).
Proof.
  intros. unfold turn_side, old. destruct (w_swap w f); cbn [xorb]; [|reflexivity].
  destruct (Rgt_dec (g f false) (g f true)), (Rgt_dec (g f true) (g f false)); lra.
Qed.
Lemma t_avh : forall (mu q : sfield3 V F E) f,
  scal3 0.5 (add3 (hflux (a_f (ts mu) f true) (a_gf (ts q) f true)) (hflux (a_f (ts mu) f false) (a_gf (ts q) f false)))
  = a3 (scal3 0.5 (add3 (hflux (a_f mu f true) (a_gf q f true)) (hflux (a_f mu f false) (a_gf q f false)))).
Proof.
  intros. cbn [turn_s3 a_f a_gf]. rewrite !a3_hflux, a3_add, a3_scal. do 2 f_equal.
  exact (t_old_add (fun s => hflux (a_f mu f s) (a_gf q f s)) f).
Qed.

Lemma t_hor_diff : forall phi c, hor_diff M' K' (ts phi) (ts c) = hor_diff M K phi c.
Proof.
  intros phi c. unfold hor_diff. change (k_muh K') with (option_map ts (k_muh K)).
  destruct (k_muh K) as [mu|]; [|reflexivity]. cbn [option_map].
  change (k_hdg K') with (k_hdg K). change (k_sipgh K') with (k_sipgh K). change (k_sigh K') with (turn_side w (k_sigh K)). cbv zeta.
  assert (FI : forall f,
    k_sipgh K * (if Rgt_dec (turn_side w (k_sigh K) f true) (turn_side w (k_sigh K) f false)
                 then turn_side w (k_sigh K) f true else turn_side w (k_sigh K) f false)
      * dot3 (jump3 M' (ts phi) f) (hflux (avg (a_f (ts mu) f)) (jump3 M' (ts c) f))
    - dot3 (scal3 0.5 (add3 (hflux (a_f (ts mu) f true) (a_gf (ts phi) f true)) (hflux (a_f (ts mu) f false) (a_gf (ts phi) f false)))) (jump3 M' (ts c) f)
    - dot3 (jump3 M' (ts phi) f) (scal3 0.5 (add3 (hflux (a_f (ts mu) f true) (a_gf (ts c) f true)) (hflux (a_f (ts mu) f false) (a_gf (ts c) f false))))
    = k_sipgh K * (if Rgt_dec (k_sigh K f true) (k_sigh K f false) then k_sigh K f true else k_sigh K f false)
      * dot3 (jump3 M phi f) (hflux (avg (a_f mu f)) (jump3 M c f))
    - dot3 (scal3 0.5 (add3 (hflux (a_f mu f true) (a_gf phi f true)) (hflux (a_f mu f false) (a_gf phi f false)))) (jump3 M c f)
    - dot3 (jump3 M phi f) (scal3 0.5 (add3 (hflux (a_f mu f true) (a_gf c f true)) (hflux (a_f mu f false) (a_gf c f false))))).
  { intro f. rewrite t_max1, !t_avh, t_avg, !t_jump3, a3_hflux, !act_dot3. reflexivity. }
  assert (BI : forall e, - (dot3 (hflux (a_e (ts mu) e) (a_ge (ts c) e)) (g_ne M' e) * a_e (ts phi) e)
                       = - (dot3 (hflux (a_e mu e) (a_ge c e)) (g_ne M e) * a_e phi e)).
  { intro e. cbn [turn_s3 a_e a_ge]. rewrite t_ne, a3_hflux, act_dot3. reflexivity. }
  do 2 f_equal; [f_equal; [f_equal|]|].
  - apply t_dx. intro p. cbn [turn_s3 a_v a_gv]. rewrite a3_hflux. apply act_dot3.
  - destruct (k_hdg K); [|reflexivity]. f_equal; [apply t_dSh; exact FI|apply t_dSv; exact FI].
  - apply t_bot. exact BI.
  - apply t_surf. exact BI.
Qed.

Lemma t_avv : forall (mu q : sfield3 V F E) f,
  avg (fun s => a_f (ts mu) f s * c2 (a_gf (ts q) f s)) = avg (fun s => a_f mu f s * c2 (a_gf q f s)).
Proof. intros. exact (old_avg w (fun s => a_f mu f s * c2 (a_gf q f s)) f). Qed.

Lemma t_ver_diff : forall phi c, ver_diff M' K' (ts phi) (ts c) = ver_diff M K phi c.
Proof.
  intros phi c. unfold ver_diff. change (k_muv K') with (option_map ts (k_muv K)).
  destruct (k_muv K) as [mu|]; [|reflexivity]. cbn [option_map].
  change (k_vdg K') with (k_vdg K). change (k_sipgv K') with (k_sipgv K). change (k_sigv K') with (turn_side w (k_sigv K)). cbv zeta.
  do 2 f_equal.
  - apply t_dx. reflexivity.
  - destruct (k_vdg K); [|reflexivity]. apply t_dSh. intro f. rewrite t_max, !t_avv, t_avg, !t_jump3, !c2_act. reflexivity.
Qed.
Lemma t_tsource : forall phi, tsource M' K' (ts phi) = tsource M K phi.
Proof.
  intros. unfold tsource. change (k_source K') with (k_source K). destruct (k_source K); [|reflexivity]. apply t_dx. reflexivity.
Qed.
Lemma t_residual3 : forall phi c, horizontal_uv K -> tracer_residual3 M' K' (ts phi) (ts c) = tracer_residual3 M K phi c.
Proof.
  intros. unfold tracer_residual3. rewrite t_hor_adv, t_ver_adv, t_hor_diff, t_ver_diff, t_tsource by assumption. reflexivity.
Qed.

(** ** Vertical velocity *)
Lemma t_w_lhs : forall phi v, w_lhs M' (ts phi) (ts v) = w_lhs M phi v.
Proof.
  intros. unfold w_lhs. f_equal; [f_equal|].
  - apply t_surf. reflexivity.
  - apply t_dSh. intro f. rewrite t_avg, t_jump3, c2_act. reflexivity.
  - apply t_dx. reflexivity.
Qed.
Lemma t_w_rhs : forall ob phi uv, w_rhs M' ob (ts phi) (tv uv) = w_rhs M ob phi uv.
Proof.
  intros. unfold w_rhs. f_equal; [f_equal; [f_equal; [f_equal|]|]|].
  - apply t_dx. intro p. rewrite t_val_v. cbn [turn_s3 a_gv]. apply act_dot3.
  - apply t_dSv. intro f. rewrite t_avg3, t_jump3. apply act_dot3.
  - apply t_dSh. intro f. rewrite t_avg3, t_jump3. apply act_dot3.
  - apply t_surf. intro e. rewrite t_val_e, t_ne, act_dot3. reflexivity.
  - apply t_lat. intro e. change (g_marker M' e) with (g_marker M e). destruct (ob (g_marker M e)); [|reflexivity].
    rewrite t_val_e, t_ne, act_doth. reflexivity.
Qed.
End Tracer.

(* ------------------------------------------------------------------ *)
(** ** Momentum *)
(** the horizontal parts of the values and gradients of a velocity *)
Definition hv2 (u : vfield3 V F E) (p : V) : R * R := h2 (val_v u p).
Definition hf2 (u : vfield3 V F E) (f : F) (s : bool) : R * R := h2 (val_f u f s).
Definition he2 (u : vfield3 V F E) (e : E) : R * R := h2 (val_e u e).
Definition hgrad (u : vfield3 V F E) (p : V) : tensor := (h2 (a_gv (w_x u) p), h2 (a_gv (w_y u) p)).

Lemma t_hgrad : forall u p, hgrad (tv u) p = conj Q (hgrad u p).
Proof. intros. apply tensor_ext; cbn; ring. Qed.

Section Momentum.
Variable M : mesh3 V F E.
Variable K : menv3 V F E.
Notation M' := (turn_mesh3 w M).
Notation K' := (turn_menv w K).

Lemma t_plus : forall u, plus_dav K' (tv u) = tv (plus_dav K u).
Proof. intros. unfold plus_dav. cbn [turn_menv m_dav]. destruct (m_dav K); cbn [option_map]; [apply add_turn_v|reflexivity]. Qed.

Lemma t_pressure : forall psi, m_pressure M' K' (tv psi) = m_pressure M K psi.
Proof.
  intros. unfold m_pressure. cbn [turn_menv m_intpg]. destruct (m_intpg K) as [g|]; [|reflexivity]. cbn [option_map].
  f_equal. apply t_dx. intro p. exact (act_dot Q HO (h2 (g p)) (hv2 psi p)).
Qed.

Lemma t_mext : forall b u e, m_ext M' (turn_mbnd w b) (a3 u) e = a3 (m_ext M b u e).
Proof. intros b u e. destruct b; cbn [turn_mbnd m_ext]; [reflexivity|reflexivity|]. rewrite t_ne. apply a3_scal. Qed.
Lemma t_m_lat : forall psi uv e, m_lat M' K' (tv psi) (tv uv) e = m_lat M K psi uv e.
Proof.
  intros psi uv e.
  assert (H : forall m (k : menv3 V F E) (ps u : vfield3 V F E), m_lat m k ps u e =
    match m_bnd k (g_marker m e) with
    | None => match m_lax k with
              | None => 0
              | Some lf => 0.5 * Rabs (dot3 (val_e u e) (g_ne m e)) * lf
                  * dot2 (he2 ps e) (h2 (sub3 (val_e u e) (sub3 (val_e u e) (scal3 (2 * dot3 (val_e u e) (g_ne m e)) (g_ne m e)))))
              end
    | Some b => let u0 := val_e u e in let n := g_ne m e in let ext := m_ext m b u0 e in let av := scal3 0.5 (add3 u0 ext) in
        dot2 (h2 u0) (he2 ps e) * dot2 (h2 n) (h2 u0)
        + (1 - mupw k (doth av n)) * (dot2 (h2 (sub3 ext u0)) (he2 ps e) * dot2 (h2 n) (h2 av))
    end).
  { intros m k ps u. unfold m_lat. destruct (m_bnd k (g_marker m e)).
    - cbv zeta. unfold he2, h2, dot2, doth, val_e; cbn [fst snd c0 c1]. ring.
    - destruct (m_lax k); [|reflexivity]. reflexivity. }
  rewrite !H. change (g_marker M' e) with (g_marker M e). cbn [turn_menv m_bnd m_lax].
  destruct (m_bnd K (g_marker M e)) as [b|]; cbn [option_map].
  - cbv zeta. rewrite t_ne, t_val_e, t_mext, a3_add, a3_scal, a3_sub, act_doth, !h2_act.
    unfold he2. rewrite t_val_e, !h2_act, !(act_dot Q HO). reflexivity.
  - destruct (m_lax K) as [lf|]; [|reflexivity]. rewrite t_ne, t_val_e, act_dot3, a3_scal, !a3_sub, h2_act.
    unfold he2. rewrite t_val_e, h2_act, (act_dot Q HO). reflexivity.
Qed.

Notation un2 m uvo f := (c0 (avg3 uvo f) * c0 (nrm m f false) + c1 (avg3 uvo f) * c1 (nrm m f false)).
(** the flux through a facet *)
Lemma flux_form : forall (m : mesh3 V F E) (k : menv3 V F E) (psi uv uvo : vfield3 V F E) f,
  let up (q : sfield3 V F E) := a_f q f false * mupw k (un2 m uvo f) + a_f q f true * (1 - mupw k (un2 m uvo f)) in
  up (w_x uv) * c0 (avg3 uvo f) * c0 (jump3 m (w_x psi) f) + up (w_x uv) * c1 (avg3 uvo f) * c1 (jump3 m (w_x psi) f)
  + up (w_y uv) * c0 (avg3 uvo f) * c0 (jump3 m (w_y psi) f) + up (w_y uv) * c1 (avg3 uvo f) * c1 (jump3 m (w_y psi) f)
  = (dot2 (hf2 uv f false) (sub2 (hf2 psi f true) (hf2 psi f false)) * mupw k (doth (avg3 uvo f) (nrm m f false))
     + dot2 (hf2 uv f true) (sub2 (hf2 psi f true) (hf2 psi f false)) * (1 - mupw k (doth (avg3 uvo f) (nrm m f false))))
    * doth (avg3 uvo f) (nrm m f true).
Proof.
  intros. unfold up. rewrite !jump3_n. change (un2 m uvo f) with (doth (avg3 uvo f) (nrm m f false)).
  set (s := mupw k (doth (avg3 uvo f) (nrm m f false))). clearbody s. set (av := avg3 uvo f). clearbody av.
  unfold hf2, h2, dot2, sub2, doth, val_f, scal3; cbn [fst snd c0 c1 c2]. ring.
Qed.
Lemma t_flux : forall psi uv uvo f,
  let up m (k : menv3 V F E) (q : sfield3 V F E) (o : vfield3 V F E) := a_f q f false * mupw k (un2 m o f) + a_f q f true * (1 - mupw k (un2 m o f)) in
  let flux m (k : menv3 V F E) (ps u o : vfield3 V F E) :=
    up m k (w_x u) o * c0 (avg3 o f) * c0 (jump3 m (w_x ps) f) + up m k (w_x u) o * c1 (avg3 o f) * c1 (jump3 m (w_x ps) f)
    + up m k (w_y u) o * c0 (avg3 o f) * c0 (jump3 m (w_y ps) f) + up m k (w_y u) o * c1 (avg3 o f) * c1 (jump3 m (w_y ps) f) in
  flux M' K' (tv psi) (tv uv) (tv uvo) = flux M K psi uv uvo.
Proof.
  intros psi uv uvo f up flux. unfold flux, up. rewrite !flux_form.
  rewrite t_un. rewrite t_avg3, t_nrm, act_doth. unfold hf2. rewrite !t_val_f, !h2_act, !act_sub, !(act_dot Q HO).
  unfold mupw, msgn. change (m_sign0 K') with (m_sign0 K).
  set (x := doth (avg3 uvo f) (nrm M f false)).
  set (J := sub2 (h2 (val_f psi f true)) (h2 (val_f psi f false))).
  assert (X : doth (avg3 uvo f) (nrm M f true) = - x) by (unfold x, doth, nrm, opp3; cbn [c0 c1]; ring).
  pose proof (upwind_same (m_sign0 K) (fun s => dot2 (h2 (val_f uv f s)) J) f x (- x)
                (or_introl (fun e => eq_trans (f_equal Ropp e) Ropp_0))) as HU. cbv zeta in HU. rewrite X, <- HU. clear HU.
  unfold old. destruct (w_swap w f); cbn [xorb]; [|rewrite X; reflexivity].
  fold x. unfold J, dot2, sub2; cbn [fst snd]. ring.
Qed.

Lemma t_lax : forall psi uv f k,
  k * (jump (a_f (w_x (tv psi)) f) * jump (a_f (w_x (tv uv)) f) + jump (a_f (w_y (tv psi)) f) * jump (a_f (w_y (tv uv)) f))
  = k * (jump (a_f (w_x psi) f) * jump (a_f (w_x uv) f) + jump (a_f (w_y psi) f) * jump (a_f (w_y uv) f)).
Proof.
  intros. f_equal.
  transitivity (dot2 (act Q (sub2 (hf2 psi f (old w f true)) (hf2 psi f (old w f false)))) (act Q (sub2 (hf2 uv f (old w f true)) (hf2 uv f (old w f false))))).
  - rewrite <- !act_sub. unfold hf2. rewrite <- !h2_act, <- !t_val_f. reflexivity.
  - rewrite (act_dot Q HO). unfold old, hf2, h2, dot2, sub2, val_f, jump; cbn [fst snd c0 c1]. destruct (w_swap w f); cbn [xorb]; ring.
Qed.

Lemma t_hadv : forall psi u uo, m_hadv M' K' (tv psi) (tv u) (tv uo) = m_hadv M K psi u uo.
Proof.
  intros. unfold m_hadv. change (m_nonlin K') with (m_nonlin K). destruct (m_nonlin K); [|reflexivity].
  rewrite !t_plus. set (uv := plus_dav K u). set (uvo := plus_dav K uo). clearbody uv uvo.
  change (m_hdg K') with (m_hdg K). change (m_lax K') with (m_lax K). cbv zeta.
  do 2 f_equal; [f_equal|].
  - f_equal. apply t_dx. intro p.
    transitivity (dot2 (hv2 (tv uv) p) (dot2 (hv2 (tv uvo) p) (fst (hgrad (tv psi) p)), dot2 (hv2 (tv uvo) p) (snd (hgrad (tv psi) p)))).
    + unfold hgrad, hv2, h2, dot2, val_v; cbn [fst snd c0 c1]. ring.
    + rewrite t_hgrad. unfold hv2. rewrite !t_val_v, !h2_act, (conj_dot Q HO), (act_dot Q HO).
      unfold h2, dot2, val_v, hgrad; cbn [fst snd c0 c1 h2]. ring.
  - destruct (m_hdg K); [|reflexivity]. f_equal; [f_equal|].
    + f_equal; [apply t_dSv|apply t_dSh]; intro f; apply (t_flux psi uv uvo f).
    + destruct (m_lax K) as [lf|]; [|reflexivity].
      f_equal; [apply t_dSv|apply t_dSh]; intro f;
        change (un2 M' (tv uvo) f) with (doth (avg3 (tv uvo) f) (nrm M' f false)); rewrite t_abs_un; apply t_lax.
    + apply t_lat. intro e. apply t_m_lat.
  - apply t_surf. intro e.
    transitivity (dot2 (he2 (tv uvo) e) (he2 (tv psi) e) * dot2 (he2 (tv uv) e) (h2 (g_ne M' e))).
    + unfold he2, h2, dot2, val_e; cbn [fst snd c0 c1]. ring.
    + unfold he2. rewrite !t_val_e, t_ne, !h2_act, !(act_dot Q HO). unfold h2, dot2, val_e; cbn [fst snd c0 c1]. ring.
Qed.

Lemma t_vert : m_vert K' = option_map ts (m_vert K).
Proof.
  unfold m_vert. cbn [turn_menv m_w m_wmesh]. destruct (m_w K), (m_wmesh K); cbn [option_map]; try reflexivity.
  rewrite sub_turn_s. reflexivity.
Qed.
(** a vector with the vertical gradients of two functions *)
Lemma t_vadv : forall psi u, m_vadv M' K' (tv psi) (tv u) = m_vadv M K psi u.
Proof.
  intros. unfold m_vadv. rewrite t_vert. destruct (m_vert K) as [v|]; [|reflexivity]. cbn [option_map].
  change (m_nonlin K') with (m_nonlin K). destruct (m_nonlin K); [|reflexivity].
  rewrite t_plus. set (uv := plus_dav K u). clearbody uv.
  change (m_vdg K') with (m_vdg K). change (m_lax K') with (m_lax K). cbv zeta.
  do 2 f_equal; [f_equal|].
  - f_equal. apply t_dx. intro p.
    transitivity (dot2 (c2 (a_gv (w_x (tv psi)) p), c2 (a_gv (w_y (tv psi)) p)) (hv2 (tv uv) p) * a_v v p).
    + unfold hv2, h2, dot2, val_v; cbn [fst snd c0 c1]. cbn [turn_s3 a_v]. ring.
    + replace (c2 (a_gv (w_x (tv psi)) p), c2 (a_gv (w_y (tv psi)) p)) with (act Q (c2 (a_gv (w_x psi) p), c2 (a_gv (w_y psi) p)))
        by (apply pair_ext; cbn; ring).
      unfold hv2. rewrite t_val_v, h2_act, (act_dot Q HO). unfold h2, dot2, val_v; cbn [fst snd c0 c1]. ring.
  - destruct (m_vdg K); [|reflexivity]. f_equal.
    + apply t_dSh. intro f. rewrite t_avg, t_wn. set (a := avg (a_f v f)).
      assert (FF : forall (m : mesh3 V F E) (k : menv3 V F E) (ps q : vfield3 V F E) x,
        (a_f (w_x q) f false * mupw k x + a_f (w_x q) f true * (1 - mupw k x)) * a * c2 (jump3 m (w_x ps) f)
        + (a_f (w_y q) f false * mupw k x + a_f (w_y q) f true * (1 - mupw k x)) * a * c2 (jump3 m (w_y ps) f)
        = (dot2 (hf2 q f false) (sub2 (hf2 ps f true) (hf2 ps f false)) * mupw k x
           + dot2 (hf2 q f true) (sub2 (hf2 ps f true) (hf2 ps f false)) * (1 - mupw k x)) * (a * c2 (nrm m f true))).
      { intros. rewrite !jump3_n. unfold hf2, h2, dot2, sub2, val_f, scal3; cbn [fst snd c0 c1 c2]. ring. }
      rewrite !FF. clear FF. unfold hf2. rewrite !t_val_f, !h2_act, !act_sub, !(act_dot Q HO), t_nrm, c2_act.
      unfold mupw, msgn. change (m_sign0 K') with (m_sign0 K).
      set (x := a * c2 (nrm M f false)).
      set (J := sub2 (h2 (val_f psi f true)) (h2 (val_f psi f false))).
      assert (X : a * c2 (nrm M f true) = - x) by (unfold x, nrm, opp3; cbn [c2]; ring).
      replace (a * (if w_swap w f then - c2 (nrm M f false) else c2 (nrm M f false))) with (if w_swap w f then - x else x)
        by (unfold x; destruct (w_swap w f); ring).
      pose proof (upwind_same (m_sign0 K) (fun s => dot2 (h2 (val_f uv f s)) J) f x (- x)
                (or_introl (fun e => eq_trans (f_equal Ropp e) Ropp_0))) as HU. cbv zeta in HU. rewrite X, <- HU. clear HU.
      unfold old. destruct (w_swap w f); cbn [xorb]; [|rewrite X; reflexivity].
      fold x. unfold J, dot2, sub2; cbn [fst snd]. ring.
    + destruct (m_lax K) as [lf|]; [|reflexivity]. apply t_dSh. intro f. rewrite t_avg, t_abs_wn. apply t_lax.
  - apply t_surf. intro e.
    transitivity (dot2 (he2 (tv uv) e) (he2 (tv psi) e) * (a_e v e * c2 (g_ne M' e))).
    + unfold he2, h2, dot2, val_e; cbn [fst snd c0 c1]. cbn [turn_s3 a_e]. ring.
    + unfold he2. rewrite !t_val_e, h2_act, h2_act, (act_dot Q HO), t_ne, c2_act. unfold h2, dot2, val_e; cbn [fst snd c0 c1]. ring.
Qed.

(** A bilinear form summed over the two components does not depend on the axes. *)
Lemma cols_turn : forall (h : sfield3 V F E -> sfield3 V F E -> R),
  (forall a b q r t, h (mix3 a b q r) t = a * h q t + b * h r t) ->
  (forall a b q r t, h t (mix3 a b q r) = a * h t q + b * h t r) ->
  forall psi u, h (w_x (tv psi)) (w_x (tv u)) + h (w_y (tv psi)) (w_y (tv u))
              = h (ts (w_x psi)) (ts (w_x u)) + h (ts (w_y psi)) (ts (w_y u)).
Proof.
  intros h Hl Hr psi u. destruct HO as (O1 & O2 & O3). cbn [turn_v3 w_x w_y]. rewrite !Hl, !Hr.
  set (A := h (ts (w_x psi)) (ts (w_x u))). set (B := h (ts (w_x psi)) (ts (w_y u))).
  set (C := h (ts (w_y psi)) (ts (w_x u))). set (D := h (ts (w_y psi)) (ts (w_y u))). clearbody A B C D.
  transitivity ((qa Q * qa Q + qc Q * qc Q) * A + (qb Q * qb Q + qd Q * qd Q) * D + (qa Q * qb Q + qc Q * qd Q) * (B + C)); [ring|].
  rewrite O1, O2, O3. ring.
Qed.

Lemma dot3_mix : forall a b x y z, dot3 (add3 (scal3 a x) (scal3 b y)) z = a * dot3 x z + b * dot3 y z.
Proof. intros. unfold dot3, add3, scal3; cbn [c0 c1 c2]. ring. Qed.
Lemma dot3_mix_r : forall a b x y z, dot3 z (add3 (scal3 a x) (scal3 b y)) = a * dot3 z x + b * dot3 z y.
Proof. intros. unfold dot3, add3, scal3; cbn [c0 c1 c2]. ring. Qed.
Lemma hflux_mix : forall k a b x y, hflux k (add3 (scal3 a x) (scal3 b y)) = add3 (scal3 a (hflux k x)) (scal3 b (hflux k y)).
Proof. intros. apply v3_ext; cbn; ring. Qed.
Definition avh (mu q : sfield3 V F E) (f : F) : v3 :=
  scal3 0.5 (add3 (hflux (a_f mu f true) (a_gf q f true)) (hflux (a_f mu f false) (a_gf q f false))).
Lemma avh_mix : forall mu a b q r f, avh mu (mix3 a b q r) f = add3 (scal3 a (avh mu q f)) (scal3 b (avh mu r f)).
Proof. intros. apply v3_ext; cbn; ring. Qed.

Lemma t_hvisc : forall psi u, m_hvisc M' K' (tv psi) (tv u) = m_hvisc M K psi u.
Proof.
  intros. unfold m_hvisc. change (m_muh K') with (option_map ts (m_muh K)). destruct (m_muh K) as [mu|]; [|reflexivity].
  cbn [option_map]. rewrite t_plus. set (uv := plus_dav K u). clearbody uv. change (m_hdg K') with (m_hdg K).
  change (m_sipgh K') with (m_sipgh K). change (m_sigh K') with (turn_side w (m_sigh K)). cbv zeta.
  assert (FI : forall f,
    m_sipgh K * (if Rgt_dec (turn_side w (m_sigh K) f true) (turn_side w (m_sigh K) f false)
                 then turn_side w (m_sigh K) f true else turn_side w (m_sigh K) f false)
    * (dot3 (jump3 M' (w_x (tv psi)) f) (hflux (avg (a_f (ts mu) f)) (jump3 M' (w_x (tv uv)) f))
       + dot3 (jump3 M' (w_y (tv psi)) f) (hflux (avg (a_f (ts mu) f)) (jump3 M' (w_y (tv uv)) f))
       + dot3 (jump3 M' (w_z (tv psi)) f) (hflux (avg (a_f (ts mu) f)) (jump3 M' (w_z (tv uv)) f)))
    - (dot3 (avh (ts mu) (w_x (tv psi)) f) (jump3 M' (w_x (tv uv)) f) + dot3 (avh (ts mu) (w_y (tv psi)) f) (jump3 M' (w_y (tv uv)) f)
       + dot3 (avh (ts mu) (w_z (tv psi)) f) (jump3 M' (w_z (tv uv)) f))
    - (dot3 (jump3 M' (w_x (tv psi)) f) (avh (ts mu) (w_x (tv uv)) f) + dot3 (jump3 M' (w_y (tv psi)) f) (avh (ts mu) (w_y (tv uv)) f)
       + dot3 (jump3 M' (w_z (tv psi)) f) (avh (ts mu) (w_z (tv uv)) f))
    = m_sipgh K * (if Rgt_dec (m_sigh K f true) (m_sigh K f false) then m_sigh K f true else m_sigh K f false)
    * (dot3 (jump3 M (w_x psi) f) (hflux (avg (a_f mu f)) (jump3 M (w_x uv) f))
       + dot3 (jump3 M (w_y psi) f) (hflux (avg (a_f mu f)) (jump3 M (w_y uv) f))
       + dot3 (jump3 M (w_z psi) f) (hflux (avg (a_f mu f)) (jump3 M (w_z uv) f)))
    - (dot3 (avh mu (w_x psi) f) (jump3 M (w_x uv) f) + dot3 (avh mu (w_y psi) f) (jump3 M (w_y uv) f)
       + dot3 (avh mu (w_z psi) f) (jump3 M (w_z uv) f))
    - (dot3 (jump3 M (w_x psi) f) (avh mu (w_x uv) f) + dot3 (jump3 M (w_y psi) f) (avh mu (w_y uv) f)
       + dot3 (jump3 M (w_z psi) f) (avh mu (w_z uv) f))).
  { intro f. rewrite t_max1.
    pose proof (fun q => t_avh mu q f) as AV. fold (avh mu) in AV.
    assert (AV' : forall q, avh (ts mu) (ts q) f = a3 (avh mu q f)) by (intro q; apply t_avh). clear AV.
    rewrite (cols_turn (fun t q => dot3 (jump3 M' t f) (hflux (avg (a_f (ts mu) f)) (jump3 M' q f))))
      by (intros; rewrite ?jump3_mix, ?hflux_mix, ?dot3_mix, ?dot3_mix_r; reflexivity).
    rewrite (cols_turn (fun t q => dot3 (avh (ts mu) t f) (jump3 M' q f)))
      by (intros; rewrite ?jump3_mix, ?avh_mix, ?dot3_mix, ?dot3_mix_r; reflexivity).
    rewrite (cols_turn (fun t q => dot3 (jump3 M' t f) (avh (ts mu) q f)))
      by (intros; rewrite ?jump3_mix, ?avh_mix, ?dot3_mix, ?dot3_mix_r; reflexivity).
    cbn [turn_v3 w_z]. rewrite !AV', t_avg, !t_jump3, !a3_hflux, !act_dot3. reflexivity. }
  assert (BI : forall e,
    - (dot3 (hflux (a_e (ts mu) e) (a_ge (w_x (tv uv)) e)) (g_ne M' e) * a_e (w_x (tv psi)) e
       + dot3 (hflux (a_e (ts mu) e) (a_ge (w_y (tv uv)) e)) (g_ne M' e) * a_e (w_y (tv psi)) e)
    = - (dot3 (hflux (a_e mu e) (a_ge (w_x uv) e)) (g_ne M e) * a_e (w_x psi) e
         + dot3 (hflux (a_e mu e) (a_ge (w_y uv) e)) (g_ne M e) * a_e (w_y psi) e)).
  { intro e. f_equal.
    rewrite (cols_turn (fun t q => dot3 (hflux (a_e (ts mu) e) (a_ge q e)) (g_ne M' e) * a_e t e)).
    - cbn [turn_s3 a_e a_ge]. rewrite t_ne, !a3_hflux, !act_dot3. reflexivity.
    - intros. cbn [mix3 a_e]. ring.
    - intros. cbn [mix3 a_ge]. rewrite hflux_mix, dot3_mix. ring. }
  do 2 f_equal; [f_equal; [f_equal|]|].
  - apply t_dx. intro p.
    rewrite (cols_turn (fun t q => dot3 (a_gv t p) (hflux (a_v (ts mu) p) (a_gv q p))))
      by (intros; cbn [mix3 a_gv]; rewrite ?hflux_mix, ?dot3_mix, ?dot3_mix_r; reflexivity).
    cbn [turn_s3 a_v a_gv]. rewrite !a3_hflux, !act_dot3. reflexivity.
  - destruct (m_hdg K); [|reflexivity]. f_equal; [apply t_dSh|apply t_dSv]; exact FI.
  - apply t_surf. exact BI.
  - apply t_bot. exact BI.
Qed.

Definition avv (mu q : sfield3 V F E) (f : F) : R := avg (fun s => a_f mu f s * c2 (a_gf q f s)).
Lemma avv_mix : forall mu a b q r f, avv mu (mix3 a b q r) f = a * avv mu q f + b * avv mu r f.
Proof. intros. unfold avv, avg; cbn. ring. Qed.
Lemma c2_mix : forall a b x y, c2 (add3 (scal3 a x) (scal3 b y)) = a * c2 x + b * c2 y.
Proof. reflexivity. Qed.

Lemma t_vvisc : forall psi u, m_vvisc M' K' (tv psi) (tv u) = m_vvisc M K psi u.
Proof.
  intros. unfold m_vvisc. change (m_muv K') with (option_map ts (m_muv K)). destruct (m_muv K) as [mu|]; [|reflexivity].
  cbn [option_map]. change (m_vdg K') with (m_vdg K).
  change (m_sipgv K') with (m_sipgv K). change (m_sigv K') with (turn_side w (m_sigv K)). cbv zeta.
  do 2 f_equal.
  - apply t_dx. intro p.
    rewrite (cols_turn (fun t q => c2 (a_gv t p) * (a_v (ts mu) p * c2 (a_gv q p))))
      by (intros; cbn [mix3 a_gv]; rewrite c2_mix; ring).
    reflexivity.
  - destruct (m_vdg K); [|reflexivity]. apply t_dSh. intro f. rewrite t_max.
    repeat match goal with |- context [avg (fun s => a_f ?m f s * c2 (a_gf ?q f s))] =>
      change (avg (fun s => a_f m f s * c2 (a_gf q f s))) with (avv m q f) end.
    rewrite (cols_turn (fun t q => c2 (jump3 M' t f) * (avg (a_f (ts mu) f) * c2 (jump3 M' q f))))
      by (intros; rewrite jump3_mix, c2_mix; ring).
    rewrite (cols_turn (fun t q => avv (ts mu) t f * c2 (jump3 M' q f)))
      by (intros; rewrite ?jump3_mix, ?avv_mix, ?c2_mix; ring).
    rewrite (cols_turn (fun t q => c2 (jump3 M' t f) * avv (ts mu) q f))
      by (intros; rewrite ?jump3_mix, ?avv_mix, ?c2_mix; ring).
    assert (AV : forall q, avv (ts mu) (ts q) f = avv mu q f) by (intro q; apply t_avv).
    cbn [turn_v3 w_z]. rewrite !AV, t_avg, !t_jump3, !c2_act. reflexivity.
Qed.

Lemma t_bfric : forall psi u uo, m_bfric M' K' (tv psi) (tv u) (tv uo) = m_bfric M K psi u uo.
Proof.
  intros. unfold m_bfric. change (m_friction K') with (m_friction K). destruct (m_friction K); [|reflexivity].
  change (m_drag K') with (m_drag K). destruct (m_drag K) as [d|]; [|reflexivity]. rewrite !t_plus. cbv zeta.
  f_equal. f_equal. apply t_bot. intro e. set (uv := plus_dav K u). set (uvo := plus_dav K uo). clearbody uv uvo.
  transitivity (d e * sqrt (dot2 (he2 (tv uvo) e) (he2 (tv uvo) e)) * dot2 (he2 (tv psi) e) (he2 (tv uv) e)).
  - unfold he2, h2, dot2, val_e; cbn [fst snd c0 c1]. do 2 f_equal. f_equal. ring.
  - unfold he2. rewrite !t_val_e, !h2_act, !(act_dot Q HO). unfold h2, dot2, val_e; cbn [fst snd c0 c1].
    do 2 f_equal. f_equal. ring.
Qed.
Lemma t_ldrag : forall psi u, m_ldrag M' K' (tv psi) (tv u) = m_ldrag M K psi u.
Proof.
  intros. unfold m_ldrag. change (m_linear K') with (m_linear K). destruct (m_linear K); [|reflexivity].
  f_equal. apply t_dx. intro p. rewrite t_plus, !t_val_v, act_dot3. reflexivity.
Qed.
Lemma t_cor : forall psi u, m_cor M' K' (tv psi) (tv u) = m_cor M K psi u.
Proof.
  intros. unfold m_cor. cbn [turn_menv m_coriolis]. destruct (m_coriolis K) as [c|]; [|reflexivity]. cbn [option_map].
  f_equal. apply t_dx. intro p.
  replace (det Q * c p) with (c p * det Q) by ring. rewrite Rmult_assoc. f_equal.
  exact (act_det Q HO (hv2 u p) (hv2 psi p)).
Qed.
Lemma t_src : forall psi, m_src M' K' (tv psi) = m_src M K psi.
Proof.
  intros. unfold m_src. f_equal.
  - cbn [turn_menv m_muv m_wind m_rho0]. destruct (m_muv K); [|reflexivity]. cbn [option_map].
    destruct (m_wind K) as [t|]; [|reflexivity]. cbn [option_map]. apply t_surf. intro e. f_equal.
    exact (act_dot Q HO (h2 (t e)) (he2 psi e)).
  - cbn [turn_menv m_source]. destruct (m_source K) as [g|]; [|reflexivity]. cbn [option_map].
    apply t_dx. intro p. rewrite t_val_v. apply act_dot3.
Qed.
Lemma t_mom : forall psi u uo, mom_residual M' K' (tv psi) (tv u) (tv uo) = mom_residual M K psi u uo.
Proof.
  intros. unfold mom_residual. rewrite t_bfric. destruct (m_bfric M K psi u uo); [|reflexivity].
  rewrite t_pressure, t_hadv, t_vadv, t_hvisc, t_vvisc, t_ldrag, t_cor, t_src. reflexivity.
Qed.
End Momentum.

(** ** Internal pressure gradient *)
Lemma t_ipg : forall (M : mesh3 V F E) g sc bp ext r psi,
  ipg_rhs (turn_mesh3 w M) g sc bp ext (ts r) (tv psi) = ipg_rhs M g sc bp ext r psi.
Proof.
  intros. unfold ipg_rhs. cbv zeta.
  assert (NT : forall e, c0 (g_ne (turn_mesh3 w M) e) * a_e (w_x (tv psi)) e + c1 (g_ne (turn_mesh3 w M) e) * a_e (w_y (tv psi)) e
                       = c0 (g_ne M e) * a_e (w_x psi) e + c1 (g_ne M e) * a_e (w_y psi) e).
  { intro e. exact (act_dot Q HO (h2 (g_ne M e)) (he2 psi e)). }
  assert (FJ : forall f, g * avg (a_f (ts r) f) * (c0 (jump3 (turn_mesh3 w M) (w_x (tv psi)) f) + c1 (jump3 (turn_mesh3 w M) (w_y (tv psi)) f))
                       = g * avg (a_f r f) * (c0 (jump3 M (w_x psi) f) + c1 (jump3 M (w_y psi) f))).
  { intro f. rewrite t_avg. f_equal. rewrite !jump3_n, t_nrm.
    transitivity (dot2 (act Q (h2 (nrm M f (old w f true)))) (act Q (sub2 (hf2 psi f (old w f true)) (hf2 psi f (old w f false))))).
    - rewrite <- act_sub. unfold hf2. rewrite <- !h2_act, <- !t_val_f. unfold h2, dot2, sub2, val_f, scal3; cbn [fst snd c0 c1]. ring.
    - rewrite (act_dot Q HO). unfold old. destruct (w_swap w f); cbn [xorb]; unfold hf2, h2, dot2, sub2, val_f, scal3, nrm, opp3; cbn [fst snd c0 c1]; ring. }
  destruct bp.
  - enough (EQ : forall A B : R, A = B -> match sc with None => A | Some x => x * A end = match sc with None => B | Some x => x * B end).
    + apply EQ. f_equal; [f_equal; [f_equal|]|].
      * f_equal. apply t_dx. intro p. cbn [turn_s3 a_v]. f_equal. exact (conj_trace Q HO (hgrad psi p)).
      * f_equal; [apply t_dSv|apply t_dSh]; exact FJ.
      * f_equal; [apply t_bot|apply t_surf]; intro e; rewrite NT; reflexivity.
      * apply t_lat. intro e. change (g_marker (turn_mesh3 w M) e) with (g_marker M e). rewrite NT. reflexivity.
    + intros A B ->. reflexivity.
  - enough (EQ : forall A B : R, A = B -> match sc with None => A | Some x => x * A end = match sc with None => B | Some x => x * B end).
    + apply EQ. apply t_dx. intro p. f_equal. exact (act_dot Q HO (h2 (a_gv r p)) (hv2 psi p)).
    + intros A B ->. reflexivity.
Qed.
End Frame3d.
