(** Sums over quadrature points. *)
From Coq Require Import Reals List Bool Lra.
From Verif Require Import Forms_Model Forms_Spec.
Import ListNotations.
Open Scope R_scope.

Section Integral.
Context {X : Type}.
Implicit Types (l : list X) (w g h : X -> R).

Lemma integral_nil : forall w g, integral (@nil X) w g = 0.
Proof. reflexivity. Qed.
Lemma integral_cons : forall x l w g,
  integral (x :: l) w g = w x * g x + integral l w g.
Proof. reflexivity. Qed.

Lemma integral_ext : forall l w g h,
  (forall x, In x l -> g x = h x) -> integral l w g = integral l w h.
Proof.
  induction l as [|x l IH]; intros w g h H; [reflexivity|]; rewrite ?integral_cons.
  rewrite (H x (or_introl eq_refl)), (IH w g h); [reflexivity|].
  intros y Hy; apply H; right; exact Hy.
Qed.

Lemma integral_zero : forall l w g,
  (forall x, In x l -> g x = 0) -> integral l w g = 0.
Proof.
  induction l as [|x l IH]; intros w g H; [reflexivity|]; rewrite ?integral_cons.
  rewrite (H x (or_introl eq_refl)), (IH w g); [lra|].
  intros y Hy; apply H; right; exact Hy.
Qed.

Lemma integral_plus : forall l w g h,
  integral l w (fun x => g x + h x) = integral l w g + integral l w h.
Proof. induction l as [|x l IH]; intros; rewrite ?integral_nil, ?integral_cons; [lra|]. rewrite IH; lra. Qed.

Lemma integral_minus : forall l w g h,
  integral l w (fun x => g x - h x) = integral l w g - integral l w h.
Proof. induction l as [|x l IH]; intros; rewrite ?integral_nil, ?integral_cons; [lra|]. rewrite IH; lra. Qed.

Lemma integral_opp : forall l w g,
  integral l w (fun x => - g x) = - integral l w g.
Proof. induction l as [|x l IH]; intros; rewrite ?integral_nil, ?integral_cons; [lra|]. rewrite IH; lra. Qed.

Lemma integral_scal : forall l w k g,
  integral l w (fun x => k * g x) = k * integral l w g.
Proof. induction l as [|x l IH]; intros; rewrite ?integral_nil, ?integral_cons; [lra|]. rewrite IH; lra. Qed.

Lemma integral_nonneg : forall l w g,
  (forall x, In x l -> 0 <= w x) -> (forall x, In x l -> 0 <= g x) ->
  0 <= integral l w g.
Proof.
  induction l as [|x l IH]; intros w g Hw Hg; rewrite ?integral_nil, ?integral_cons; [lra|].
  assert (0 <= w x * g x).
  { apply Rmult_le_pos; [apply Hw|apply Hg]; left; reflexivity. }
  assert (0 <= integral l w g).
  { apply IH; intros y Hy; [apply Hw|apply Hg]; right; exact Hy. }
  lra.
Qed.

Lemma integral_le : forall l w g h,
  (forall x, In x l -> 0 <= w x) -> (forall x, In x l -> g x <= h x) ->
  integral l w g <= integral l w h.
Proof.
  intros l w g h Hw H.
  assert (0 <= integral l w (fun x => h x - g x)).
  { apply integral_nonneg; [exact Hw|]. intros x Hx. specialize (H x Hx). lra. }
  rewrite integral_minus in H0. lra.
Qed.

Lemma integral_zero_all : forall l w g,
  (forall x, In x l -> 0 < w x) -> (forall x, In x l -> 0 <= g x) ->
  integral l w g = 0 -> forall x, In x l -> g x = 0.
Proof.
  induction l as [|x l IH]; intros w g Hw Hg H y Hy; [destruct Hy|].
  rewrite integral_cons in H.
  assert (0 <= w x * g x).
  { apply Rmult_le_pos; [apply Rlt_le, Hw|apply Hg]; left; reflexivity. }
  assert (0 <= integral l w g).
  { apply integral_nonneg; intros z Hz; [apply Rlt_le, Hw|apply Hg]; right; exact Hz. }
  destruct Hy as [<-|Hy].
  - assert (w x * g x = 0) by lra.
    destruct (Rmult_integral _ _ H2) as [H3|H3]; [|exact H3].
    specialize (Hw x (or_introl eq_refl)). lra.
  - apply (IH w g); [intros z Hz; apply Hw; right; exact Hz
                    |intros z Hz; apply Hg; right; exact Hz|lra|exact Hy].
Qed.
End Integral.

Lemma half_plus : forall x, 0.5 * (x + x) = x. Proof. intro; lra. Qed.

Lemma dot2_zero_l : forall a, dot2 (0, 0) a = 0.
Proof. intro a; unfold dot2; cbn; ring. Qed.
Lemma dot2_zero_r : forall a, dot2 a (0, 0) = 0.
Proof. intro a; unfold dot2; cbn; ring. Qed.
Lemma dot2_self : forall a, 0 <= dot2 a a.
Proof. intros [a b]; unfold dot2; cbn [fst snd]; pose proof (Rle_0_sqr a); pose proof (Rle_0_sqr b);
  unfold Rsqr in *; lra. Qed.
Lemma dot2_comm : forall a b, dot2 a b = dot2 b a.
Proof. intros; unfold dot2; ring. Qed.

Lemma dx_zero {V F B} : forall (M : mesh V F B) g,
  (forall p, In p (m_cells M) -> g p = 0) -> dx M g = 0.
Proof. intros M g H. apply integral_zero, H. Qed.
Lemma dS_zero {V F B} : forall (M : mesh V F B) g,
  (forall p, In p (m_facets M) -> g p = 0) -> dS M g = 0.
Proof. intros M g H. apply integral_zero, H. Qed.
Lemma ds_zero {V F B} : forall (M : mesh V F B) g,
  (forall p, In p (m_bnds M) -> g p = 0) -> ds M g = 0.
Proof. intros M g H. apply integral_zero, H. Qed.
