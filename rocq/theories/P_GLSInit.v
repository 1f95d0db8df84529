(** C69: building a turbulence closure completes its parameters consistently. *)
From Coq Require Import Reals String List Bool Lra Psatz.
From Verif Require Import Stability_Model P_Stability P_StabilitySets Turb_Model P_Turbulence GLSInit_Model.
Import ListNotations.
Open Scope string_scope.
Open Scope R_scope.

(** what the option traits guarantee: the PositiveFloat fields are positive *)
Definition valid (o : opts) : Prop :=
  0 < g_sk o /\ 0 < g_spsi o /\ 0 < g_cmu0 o /\ 0 < g_kmin o /\ 0 < g_psimin o /\ 0 < g_epsmin o
  /\ 0 < g_lenmin o /\ 0 < g_clim o.

Lemma positive_built : forall v k o vk, positive v k = Built o vk -> 0 < v /\ k = Built o vk.
Proof. intros v k o vk H. unfold positive in H. destruct (Rlt_dec 0 v); [split; assumption|discriminate]. Qed.
Lemma positive_true : forall v k, 0 < v -> positive v k = k.
Proof. intros v k H. unfold positive. destruct (Rlt_dec 0 v); [reflexivity|contradiction]. Qed.

(** all that construct does, as equations on the fields *)
Lemma construct_fields : forall num o vk o' vk', construct num o vk = Built o' vk' ->
  exists c, stability (g_stability o) = Some c
  /\ (g_closure o' = g_closure o /\ g_stability o' = g_stability o /\ g_p o' = g_p o /\ g_m o' = g_m o
      /\ g_n o' = g_n o /\ g_sk o' = g_sk o /\ g_c1 o' = g_c1 o /\ g_c2 o' = g_c2 o /\ g_c3p o' = g_c3p o
      /\ g_fwall o' = g_fwall o /\ g_ri o' = g_ri o /\ g_kmin o' = g_kmin o /\ g_epsmin o' = g_epsmin o)
  /\ (f_cmu0 o' = f_cmu0 o /\ f_c3m o' = f_c3m o /\ f_kappa o' = f_kappa o /\ f_spsi o' = f_spsi o
      /\ f_clim o' = f_clim o /\ f_lenmin o' = f_lenmin o /\ f_psimin o' = f_psimin o)
  /\ (if f_cmu0 o then d5 c - n2 c <> 0 /\ g_cmu0 o' = compute_cmu0 c /\ 0 < compute_cmu0 c
      else g_cmu0 o' = g_cmu0 o)
  /\ (if f_kappa o then g_kappa o' = compute_kappa (g_spsi o) (g_cmu0 o') (g_n o) (g_c1 o) (g_c2 o)
                        /\ vk' = g_kappa o' /\ g_spsi o' = g_spsi o
      else g_kappa o' = g_kappa o /\ vk' = vk /\
           if f_spsi o then g_spsi o' = compute_sigma_psi (g_kappa o) (g_cmu0 o') (g_n o) (g_c1 o) (g_c2 o)
                            /\ 0 < g_spsi o'
           else g_spsi o' = g_spsi o)
  /\ g_c3m o' = (if f_c3m o then c3_minus_of c (num c (g_ri o)) (g_c1 o) (g_c2 o) (g_ri o) else g_c3m o)
  /\ (if f_psimin o then g_psimin o' = psi_of_eps (gls_of o') (g_kmin o) (g_epsmin o) /\ 0 < g_psimin o'
      else g_psimin o' = g_psimin o)
  /\ (if f_lenmin o then g_lenmin o' = len_of (gls_of o') (g_kmin o) (g_epsmin o) /\ 0 < g_lenmin o'
      else g_lenmin o' = g_lenmin o)
  /\ (if f_clim o then g_clim o' = compute_length_clim c (g_cmu0 o') (g_ri o) /\ 0 < g_clim o'
      else g_clim o' = g_clim o).
Proof.
  intros num o vk o' vk' H. unfold construct in H.
  destruct (stability (g_stability o)) as [c|]; [|discriminate]. exists c. split; [reflexivity|].
  destruct o as [cl st p m n sk sp cm c1 c2 c3m c3p fw ri ka km pm em lm li b1 b2 b3 b4 b5 b6 b7].
  unfold with_cmu0 in H. cbn [f_cmu0] in H.
  destruct b1; [destruct (Req_EM_T (d5 c - n2 c) 0) as [|Hd]; [discriminate|];
                apply positive_built in H; destruct H as [Hcm H]|];
  unfold with_kappa, set_cmu0 in H; cbn in H;
  (destruct b3; [|destruct b4; [apply positive_built in H; destruct H as [Hs H]|]]);
  unfold with_rest, set_kappa, set_spsi in H; cbn in H;
  destruct b2; unfold set_c3m in H; cbn in H;
  (destruct b7; [apply positive_built in H; destruct H as [Hpm H]|]); unfold set_psimin in H; cbn in H;
  (destruct b6; [apply positive_built in H; destruct H as [Hlm H]|]); unfold set_lenmin in H; cbn in H;
  (destruct b5; [apply positive_built in H; destruct H as [Hli H]|]); unfold set_clim in H; cbn in H;
  remember (compute_cmu0 c) as cmv eqn:Ecm;
  assert (Ho : o' = match Built o' vk' with Built a _ => a | Failed => o' end) by reflexivity;
  assert (Hv : vk' = match Built o' vk' with Built _ b => b | Failed => vk' end) by reflexivity;
  rewrite <- H in Ho, Hv; cbn in Ho, Hv; subst o' vk'; cbn;
  repeat split; try assumption; try reflexivity.
Qed.

(** Building the model a second time from the completed options changes nothing. *)
Theorem C69_idempotent : forall num o vk o' vk', construct num o vk = Built o' vk' ->
  construct num o' vk' = Built o' vk'.
Proof.
  intros num o vk o' vk' H.
  destruct (construct_fields num o vk o' vk' H) as (c & Ec & (E1 & E2 & E3 & E4 & E5 & E6 & E7 & E8 & E9 & E10
    & E11 & E12 & E13) & (F1 & F2 & F3 & F4 & F5 & F6 & F7) & P1 & P2 & P3 & P4 & P5 & P6).
  rewrite <- E2 in Ec. rewrite <- F1 in P1. rewrite <- F3, <- F4, <- E5, <- E7, <- E8 in P2.
  rewrite <- F2, <- E11, <- E7, <- E8 in P3. rewrite <- F7, <- E12, <- E13 in P4.
  rewrite <- F6, <- E12, <- E13 in P5. rewrite <- F5, <- E11 in P6.
  clear E1 E2 E3 E4 E5 E6 E7 E8 E9 E10 E11 E12 E13 F1 F2 F3 F4 F5 F6 F7 H.
  unfold construct. rewrite Ec.
  destruct o' as [cl st p m n sk sp cm c1 c2 c3m c3p fw ri ka km pm em lm li b1 b2 b3 b4 b5 b6 b7].
  unfold psi_of_eps, len_of in P4, P5. cbn in P1, P2, P3, P4, P5, P6.
  assert (S1 : forall k, with_cmu0 c (mkOpts cl st p m n sk sp cm c1 c2 c3m c3p fw ri ka km pm em lm li b1 b2 b3 b4 b5 b6 b7) k = k (mkOpts cl st p m n sk sp cm c1 c2 c3m c3p fw ri ka km pm em lm li b1 b2 b3 b4 b5 b6 b7)).
  { intro k. unfold with_cmu0. cbn [f_cmu0]. destruct b1; [|reflexivity]. destruct P1 as (Hd & Hc & Hp).
    destruct (Req_EM_T (d5 c - n2 c) 0); [contradiction|]. rewrite positive_true by exact Hp.
    unfold set_cmu0; cbn. rewrite <- Hc. reflexivity. }
  rewrite S1. clear S1 P1.
  assert (S2 : forall k, with_kappa vk' (mkOpts cl st p m n sk sp cm c1 c2 c3m c3p fw ri ka km pm em lm li b1 b2 b3 b4 b5 b6 b7) k
     = k (mkOpts cl st p m n sk sp cm c1 c2 c3m c3p fw ri ka km pm em lm li b1 b2 b3 b4 b5 b6 b7) vk').
  { intro k. unfold with_kappa. cbn. destruct b3.
    - destruct P2 as (Hk & Hv & Hs). unfold set_kappa; cbn. subst vk'. rewrite Hs, <- Hk. reflexivity.
    - destruct P2 as (Hk & Hv & Hs). destruct b4; [|reflexivity].
      destruct Hs as [Hs Hp]. rewrite Hk, <- Hs. rewrite positive_true by exact Hp. reflexivity. }
  rewrite S2. clear S2 P2.
  unfold with_rest. cbn.
  assert (S3 : (if b2 then set_c3m (mkOpts cl st p m n sk sp cm c1 c2 c3m c3p fw ri ka km pm em lm li b1 b2 b3 b4 b5 b6 b7)
     (c3_minus_of c (num c ri) c1 c2 ri) else mkOpts cl st p m n sk sp cm c1 c2 c3m c3p fw ri ka km pm em lm li b1 b2 b3 b4 b5 b6 b7)
     = mkOpts cl st p m n sk sp cm c1 c2 c3m c3p fw ri ka km pm em lm li b1 b2 b3 b4 b5 b6 b7).
  { destruct b2; [|reflexivity]. unfold set_c3m; cbn. rewrite <- P3. reflexivity. }
  rewrite S3. clear S3 P3. unfold psi_of_eps, len_of. cbn.
  destruct b7; [destruct P4 as [P4 Q4]; rewrite <- P4; rewrite positive_true by exact Q4; unfold set_psimin; cbn|];
  (destruct b6; [destruct P5 as [P5 Q5]; rewrite <- P5; rewrite positive_true by exact Q5; unfold set_lenmin; cbn|]);
  (destruct b5; [destruct P6 as [P6 Q6]; rewrite <- P6; rewrite positive_true by exact Q6; unfold set_clim; cbn|]);
  reflexivity.
Qed.
