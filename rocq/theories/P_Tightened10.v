(** Theorems added after wrong programs were found that earlier ones accept. *)
From Coq Require Import Reals List String Bool Lra Arith.
Import ListNotations.
From Verif Require Import Exporter_Model SolverParams_Model P_SolverParams Geometry_Model P_Geometry P_Geometry2 P_Geometry3.
Open Scope string_scope.

(** C66: without a tag, or with an empty one, every solver is tagged with its options
    prefix (up to the trailing underscore of stage prefixes). *)
Lemma app_assoc_s : forall a b c : string, (a ++ b) ++ c = a ++ (b ++ c).
Proof. induction a as [|x a IH]; intros b c; [reflexivity|]. cbn. f_equal. apply IH. Qed.
Theorem C66_default_tags J h o eq h' svs :
  construct J h o eq = inl (h', svs) -> o_tag o = None \/ o_tag o = Some "" ->
  forall s, In s svs -> sv_prefix s = sv_tag s \/ sv_prefix s = sv_tag s ++ "_".
Proof.
  intros C T s Hs.
  assert (G : forall n, tag_of o n = n) by (intro n; unfold tag_of; destruct T as [T|T]; rewrite T; reflexivity).
  assert (DK : forall c n h1 s1, dirk c n h o eq = inl (h1, s1) -> In s s1 ->
     sv_prefix s = sv_tag s \/ sv_prefix s = sv_tag s ++ "_").
  { intros c n h1 s1 D Hi. unfold dirk in D. apply inl_pair in D as [_ <-].
    apply in_map_iff in Hi as (i & <- & _). right. cbn [sv_prefix sv_tag]. rewrite G, !app_assoc_s. reflexivity. }
  assert (EK : forall c n t h0 h1 s1, erk c n t h0 o eq = inl (h1, s1) -> In s s1 ->
     sv_prefix s = sv_tag s \/ sv_prefix s = sv_tag s ++ "_").
  { intros c n t h0 h1 s1 D Hi. unfold erk in D. apply inl_pair in D as [_ <-]. destruct t; [|destruct Hi].
    apply in_map_iff in Hi as (i & <- & _). left. cbn [sv_prefix sv_tag]. rewrite G. reflexivity. }
  destruct J as [| | |c| | |c n|c n|c n t|c t|dc ec n t]; cbn [construct] in C.
  - unfold forward_euler in C. apply inl_pair in C as [_ <-]. destruct Hs as [<-|[]]. left. cbn. now rewrite G.
  - unfold crank_nicolson in C. destruct (o_semi o); [|discriminate C]. apply inl_pair in C as [_ <-].
    destruct Hs as [<-|[]]. left. cbn. now rewrite G.
  - unfold steady_state in C. apply inl_pair in C as [_ <-]. destruct Hs as [<-|[]]. left. cbn. now rewrite G.
  - unfold pressure_projection in C. destruct (o_semi o); [|discriminate C].
    destruct (guard _ _) as [[|]|]; [discriminate C| |discriminate C]. apply inl_pair in C as [_ <-].
    destruct Hs as [<-|[<-|[]]]; left; cbn [sv_prefix sv_tag]; now rewrite G.
  - unfold leap_frog in C. apply inl_pair in C as [_ <-]. destruct Hs as [<-|[]]. now left.
  - unfold ssprk22_ale in C. apply inl_pair in C as [_ <-]. destruct Hs as [<-|[]]. now left.
  - exact (DK _ _ _ _ C Hs).
  - unfold dirk_uform in C. destruct (o_semi o); [|discriminate C]. apply inl_pair in C as [_ <-].
    apply in_app_or in Hs. destruct Hs as [Hs|Hs]; apply in_map_iff in Hs as (i & <- & _);
    right; cbn [sv_prefix sv_tag]; rewrite G, !app_assoc_s; reflexivity.
  - exact (EK _ _ _ _ _ _ C Hs).
  - unfold erk_shu_osher in C. apply inl_pair in C as [_ <-]. destruct t; [|destruct Hs].
    destruct Hs as [<-|[]]. left. cbn [sv_prefix sv_tag]. now rewrite G.
  - unfold imex in C. destruct (dirk dc n h o eq) as [[h1 s1]|] eqn:D; [|discriminate C].
    destruct (erk ec n t h1 o eq) as [[h2 s2]|] eqn:K; [|discriminate C]. apply inl_pair in C as [_ <-].
    apply in_app_or in Hs. destruct Hs as [Hs|Hs]; [exact (DK _ _ _ _ D Hs)|exact (EK _ _ _ _ _ _ K Hs)].
Qed.
Example C66_default_tags_case : exists (h' : heap) (s : solver),
  construct CN (fun _ => []) (mk_opts 0%nat 1%nat None (Some true) (Some "")) "Eq" = inl (h', [s]) /\
  sv_tag s = "CrankNicolson-Eq".
Proof. eexists. eexists. split; reflexivity. Qed.

(** C66: the pressure projection scheme is refused only for the one combination of solver
    settings; in particular not when no block settings are given. *)
Theorem C66_guard_only p eta_cg :
  guard p eta_cg = inl true ->
  eta_cg = false /\ dict_get p "ksp_type" = Some (PStr "preonly") /\
  exists sub, dict_get p "fieldsplit_H_2d" = Some sub /\
    getitem_p sub "ksp_type" = inl (PStr "preonly") /\
    getitem_p sub "pc_python_type" = inl (PStr "thetis.AssembledSchurPC").
Proof.
  assert (P : forall v x, peq v x = true -> v = PStr x).
  { intros v x Q. unfold peq, is_str in Q. destruct v as [t|d]; [|discriminate Q].
    apply String.eqb_eq in Q. now rewrite Q. }
  unfold guard, getitem. intro H.
  destruct (dict_get p "ksp_type") as [kt|]; [|discriminate H].
  destruct (peq kt "preonly") eqn:E1; cbn [negb] in H; [|discriminate H].
  destruct (dict_get p "fieldsplit_H_2d") as [sub|]; [|discriminate H].
  destruct (getitem_p sub "ksp_type") as [k2|] eqn:E2; [|discriminate H].
  destruct (peq k2 "preonly") eqn:E3; cbn [negb] in H; [|discriminate H].
  destruct (getitem_p sub "pc_python_type") as [pt|] eqn:E4; [|discriminate H].
  destruct (peq pt "thetis.AssembledSchurPC") eqn:E5; cbn [negb] in H; [|discriminate H].
  apply P in E1, E3, E5. subst. split; [destruct eta_cg; [discriminate H|reflexivity]|].
  split; [reflexivity|]. exists sub. repeat split; assumption.
Qed.
Theorem C66_no_blocks p eta_cg kt :
  dict_get p "ksp_type" = Some kt -> dict_get p "fieldsplit_H_2d" = None -> guard p eta_cg = inl false.
Proof.
  intros A B. unfold guard, getitem. rewrite A, B. destruct (negb _); reflexivity.
Qed.
Example C66_no_blocks_case : guard [("ksp_type", PStr "preonly")] false = inl false.
Proof. reflexivity. Qed.

(** C66: the tendency solves of the u-form schemes are mass matrix solves with conjugate
    gradients. *)
Theorem C66_tendency_parameters cls n h o eq h' svs i :
  construct (UForm cls n) h o eq = inl (h', svs) -> (n <= i < n + (n - 1))%nat ->
  exists s d, nth_error svs i = Some s /\ sv_params s = Some d /\
    dict_get d "ksp_type" = Some (PStr "cg") /\ dict_get d "snes_type" = Some (PStr "ksponly") /\
    dict_get d "ksp_rtol" = Some (PStr "1e-8").
Proof.
  intros C Hi. destruct (C66_uform_parameters cls n h o eq h' svs C) as (d & _ & M).
  assert (L : List.length svs = (n + (n - 1))%nat).
  { rewrite <- (map_length sv_params), M, app_length, !repeat_length. reflexivity. }
  destruct (nth_error svs i) as [s|] eqn:N.
  2:{ apply nth_error_None in N. exfalso. rewrite L in N. destruct Hi as [_ Hi]. exact (Nat.lt_irrefl _ (Nat.lt_le_trans _ _ _ Hi N)). }
  exists s, k_params. split; [reflexivity|]. split; [|repeat split].
  assert (Q := map_nth_error sv_params i svs N). rewrite M, nth_error_app2 in Q by (rewrite repeat_length; apply Hi).
  rewrite repeat_length in Q. apply nth_error_In, repeat_spec in Q. exact Q.
Qed.

Open Scope R_scope.
(** C68: a wetting and drying parameter is accepted exactly when it is nowhere negative. *)
Theorem C68_alpha_accepted :
  (forall x, check_alpha (AConstant x) = Valid <-> 0 <= x) /\
  (forall vs, check_alpha (AFunction vs) = Valid <-> forall v, In v vs -> 0 <= v) /\
  (forall x, check_alpha (AConstant x) = AssertionError <-> x < 0).
Proof.
  unfold check_alpha, Rltb. split; [|split].
  - intro x. destruct (Rlt_dec x 0); split; intro H; try reflexivity; try discriminate H; lra.
  - intro vs.
    assert (A : forall v, In v vs -> fold_right Rmin 0 vs <= v).
    { induction vs as [|w vs IH]; intros v []; cbn [fold_right].
      - subst. apply Rmin_l.
      - eapply Rle_trans; [apply Rmin_r|]. apply IH. assumption. }
    assert (B : (forall v, In v vs -> 0 <= v) -> 0 <= fold_right Rmin 0 vs).
    { clear A. induction vs as [|w vs IH]; intro H; cbn [fold_right]; [lra|].
      apply Rmin_glb; [apply H; now left|apply IH; intros v Hv; apply H; now right]. }
    destruct (Rlt_dec (fold_right Rmin 0 vs) 0) as [Q|Q]; split; intro H; try reflexivity.
    + discriminate H.
    + specialize (B H). lra.
    + intros v Hv. specialize (A v Hv). lra.
  - intro x. destruct (Rlt_dec x 0); split; intro H; try reflexivity; try discriminate H; lra.
Qed.

(** C68: the test function is weighted along the stream: the increment is a nonnegative time
    times the derivative of the test function along the velocity, the same time for all test
    functions and velocities, half the cell crossing time without diffusion. *)
Theorem C68_supg_streamline unorm D cs : 0 < unorm -> 0 <= cs ->
  exists tau, 0 <= tau <= cs / (2 * unorm) /\ (D <= 0 -> tau = cs / (2 * unorm)) /\
    forall u gphi phi,
      supg_test unorm D cs u gphi phi - phi = tau * (fst u * fst gphi + snd u * snd gphi).
Proof.
  intros U C. exists (supg_tau unorm D cs). split; [exact (C68_supg_bounds unorm D cs U C)|]. split.
  - intro HD. unfold supg_tau, Rltb. destruct (Rlt_dec 0 D); [lra|]. replace 0.5 with (1/2) by lra. field. lra.
  - intros u gphi phi. unfold supg_test, supg_inc, Rltb. destruct (Rlt_dec 0 unorm); [|contradiction]. ring.
Qed.
Print Assumptions C66_default_tags.
Print Assumptions C68_supg_streamline.
