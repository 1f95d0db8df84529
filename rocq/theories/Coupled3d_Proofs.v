(* Proof machinery for P_Coupled3d.v: a verified data-flow analysis of the
   operation lists of Coupled3d_Model.v. *)
From Coq Require Import Reals List Bool Arith Lia.
From Verif Require Import Coupled3d_Model.
Import ListNotations.
Local Open Scope R_scope.

Lemma fmem_in : forall k l, fmem k l = true <-> In k l.
Proof.
  intros k l. unfold fmem. rewrite existsb_exists. split.
  - intros [x [Hi Hx]]. destruct (fld_eq_dec k x); [subst; exact Hi | discriminate].
  - intros Hi. exists k. split; [exact Hi|]. destruct (fld_eq_dec k k); congruence.
Qed.

Lemma fmem_not_in : forall k l, fmem k l = false <-> ~ In k l.
Proof.
  intros k l. destruct (fmem k l) eqn:E.
  - apply fmem_in in E. split; [discriminate | tauto].
  - split; [intros _ Hi; apply fmem_in in Hi; congruence | reflexivity].
Qed.

Definition disjoint (a b : list fld) : bool := forallb (fun k => negb (fmem k b)) a.

Lemma disjoint_spec : forall a b k, disjoint a b = true -> In k a -> ~ In k b.
Proof.
  intros a b k H Hi. unfold disjoint in H. rewrite forallb_forall in H.
  specialize (H k Hi). apply negb_true_iff in H. now apply fmem_not_in.
Qed.

Section Sem.
  Variable den : op -> list vec -> fld -> vec.
  Variables dt gamma : R.
  Notation val := (val den dt gamma).
  Notation exec := (exec den dt gamma).
  Notation run := (run den dt gamma).

  Lemma run_app : forall p q s, run (p ++ q) s = run q (run p s).
  Proof. intros. unfold Coupled3d_Model.run. apply fold_left_app. Qed.

  Lemma exec_in : forall s o k, In k (outs o) -> exec s o k = val o s k.
  Proof. intros. unfold Coupled3d_Model.exec. now rewrite (proj2 (fmem_in k (outs o))). Qed.

  Lemma exec_out : forall s o k, ~ In k (outs o) -> exec s o k = s k.
  Proof. intros. unfold Coupled3d_Model.exec. now rewrite (proj2 (fmem_not_in k (outs o))). Qed.

  (* what an operation computes depends only on the fields it reads *)
  Lemma val_local : forall o s s' k,
    (forall f, In f (ins o) -> s f = s' f) -> val o s k = val o s' k.
  Proof.
    intros o s s' k H.
    assert (Hm : map s (ins o) = map s' (ins o)) by (apply map_ext_in; exact H).
    destruct o; cbn [Coupled3d_Model.val]; try (rewrite Hm; reflexivity);
      cbn [ins In] in H; rewrite ?(H Ecg), ?(H Elev2), ?(H Uv3), ?(H Dav3), ?(H Dav2), ?(H Uv2),
        ?(H Domain), ?(H DomOld), ?(H UvOld), ?(H UvNew) by tauto; reflexivity.
  Qed.

  (* field k holds what o would compute from the present fields *)
  Definition fresh (o : op) (k : fld) (s : state) : Prop := s k = val o s k.

  Definition touches (x : op) (l : list fld) : bool := negb (disjoint (outs x) l).

  Definition step_fresh (o : op) (k : fld) (now : bool) (x : op) : bool :=
    if op_eq_dec x o then true else now && negb (touches x (k :: ins o)).

  Fixpoint flow (o : op) (k : fld) (p : list op) (now : bool) : bool :=
    match p with
    | [] => now
    | x :: r => flow o k r (step_fresh o k now x)
    end.

  Definition wf (o : op) (k : fld) : bool := fmem k (outs o) && disjoint (outs o) (ins o).

  Lemma step_fresh_sound : forall o k now x s,
    wf o k = true -> (now = true -> fresh o k s) ->
    step_fresh o k now x = true -> fresh o k (exec s x).
  Proof.
    intros o k now x s Hwf Hnow H. apply andb_true_iff in Hwf. destruct Hwf as [Hk Hd].
    apply fmem_in in Hk. unfold step_fresh in H. unfold fresh.
    destruct (op_eq_dec x o) as [->|Hne].
    - rewrite exec_in by exact Hk. apply val_local. intros f Hf. symmetry. apply exec_out.
      intros Ho. exact (disjoint_spec _ _ f Hd Ho Hf).
    - apply andb_true_iff in H. destruct H as [Hn Ht].
      unfold touches in Ht. rewrite negb_involutive in Ht.
      assert (Hsame : forall f, In f (k :: ins o) -> exec s x f = s f)
        by (intros f Hf; apply exec_out; intros Ho; exact (disjoint_spec _ _ f Ht Ho Hf)).
      rewrite (Hsame k (or_introl eq_refl)). rewrite (Hnow Hn). apply val_local.
      intros f Hf. symmetry. apply Hsame. now right.
  Qed.

  Lemma flow_sound : forall o k p now s,
    wf o k = true -> (now = true -> fresh o k s) ->
    flow o k p now = true -> fresh o k (run p s).
  Proof.
    intros o k p. induction p as [|x r IH]; intros now s Hwf Hnow H; cbn [flow] in H.
    - cbn. auto.
    - cbn. apply IH with (now := step_fresh o k now x); try assumption.
      intros H1. now apply step_fresh_sound with (now := now).
  Qed.

  (* fresh whenever an operation selected by [at_] is about to run *)
  Fixpoint flow_at (at_ : op -> bool) (o : op) (k : fld) (p : list op) (now : bool) : bool :=
    match p with
    | [] => true
    | x :: r => (negb (at_ x) || now) && flow_at at_ o k r (step_fresh o k now x)
    end.

  Lemma flow_at_sound : forall at_ o k p now s p1 x p2,
    wf o k = true -> (now = true -> fresh o k s) ->
    flow_at at_ o k p now = true -> p = p1 ++ x :: p2 -> at_ x = true ->
    fresh o k (run p1 s).
  Proof.
    intros at_ o k p. induction p as [|y r IH]; intros now s p1 x p2 Hwf Hnow H Hp Hx.
    - destruct p1; discriminate.
    - cbn [flow_at] in H. apply andb_true_iff in H. destruct H as [H1 H2].
      destruct p1 as [|z p1].
      + cbn in Hp. assert (y = x) by congruence. subst y. rewrite Hx in H1. cbn in H1. cbn. auto.
      + assert (y = z /\ r = p1 ++ x :: p2) as [-> ->] by (split; cbn in Hp; congruence).
        cbn. eapply IH; eauto. intros H3. now apply step_fresh_sound with (now := now).
  Qed.

  (* fields no operation of p writes keep their value *)
  Lemma run_frame : forall p s k, forallb (fun x => negb (fmem k (outs x))) p = true -> run p s k = s k.
  Proof.
    induction p as [|x r IH]; intros s k H; [reflexivity|].
    cbn [forallb] in H. apply andb_true_iff in H. destruct H as [H1 H2].
    cbn. change (run r (exec s x) k = s k). rewrite IH by exact H2. apply exec_out.
    apply negb_true_iff in H1. now apply fmem_not_in.
  Qed.
End Sem.

(* a boolean statement checked for every choice of options *)
Definition fb (g : bool -> bool) : bool := g true && g false.

Lemma fb_spec : forall g, fb g = true -> forall b, g b = true.
Proof. intros g H b. apply andb_true_iff in H. destruct H. now destruct b. Qed.

Definition for_all_opts (f : copt -> bool) : bool :=
  fb (fun a => fb (fun b => fb (fun c => fb (fun d => fb (fun e => fb (fun g => fb (fun h =>
  fb (fun i => fb (fun j => fb (fun k => fb (fun l => fb (fun m => fb (fun n =>
    f (Build_copt a b c d e g h i j k l m n)))))))))))))).

Lemma for_all_opts_spec : forall f, for_all_opts f = true -> forall o, f o = true.
Proof.
  intros f H [a b c d e g h i j k l m n].
  unfold for_all_opts in H.
  pose proof (fb_spec _ H a) as H1. pose proof (fb_spec _ H1 b) as H2.
  pose proof (fb_spec _ H2 c) as H3. pose proof (fb_spec _ H3 d) as H4.
  pose proof (fb_spec _ H4 e) as H5. pose proof (fb_spec _ H5 g) as H6.
  pose proof (fb_spec _ H6 h) as H7. pose proof (fb_spec _ H7 i) as H8.
  pose proof (fb_spec _ H8 j) as H9. pose proof (fb_spec _ H9 k) as H10.
  pose proof (fb_spec _ H10 l) as H11. pose proof (fb_spec _ H11 m) as H12.
  exact (fb_spec _ H12 n).
Qed.

Definition for_all_ic (f : icopt -> bool) : bool :=
  fb (fun a => fb (fun b => fb (fun c => fb (fun d => fb (fun e => fb (fun g => fb (fun h =>
    f (Build_icopt a b c d e g h)))))))).

Lemma for_all_ic_spec : forall f, for_all_ic f = true -> forall c, f c = true.
Proof.
  intros f H [a b c d e g h]. unfold for_all_ic in H.
  pose proof (fb_spec _ H a) as H1. pose proof (fb_spec _ H1 b) as H2.
  pose proof (fb_spec _ H2 c) as H3. pose proof (fb_spec _ H3 d) as H4.
  pose proof (fb_spec _ H4 e) as H5. pose proof (fb_spec _ H5 g) as H6.
  exact (fb_spec _ H6 h).
Qed.

Definition eq_op (a b : op) : bool := if op_eq_dec a b then true else false.
Lemma eq_op_spec : forall a b, eq_op a b = true <-> a = b.
Proof. intros. unfold eq_op. destruct (op_eq_dec a b); split; congruence. Qed.

Definition eq_ops (a b : list op) : bool := if list_eq_dec op_eq_dec a b then true else false.
Lemma eq_ops_spec : forall a b, eq_ops a b = true -> a = b.
Proof. intros. unfold eq_ops in H. destruct (list_eq_dec op_eq_dec a b); congruence. Qed.

Lemma flow_app : forall o k p q now, flow o k (p ++ q) now = flow o k q (flow o k p now).
Proof. intros o k p. induction p as [|x r IH]; intros q now; cbn [app flow]; [reflexivity | apply IH]. Qed.

Lemma flow_mono : forall o k p now, flow o k p false = true -> flow o k p now = true.
Proof.
  intros o k p. induction p as [|x r IH]; intros now H; cbn [flow] in *; [discriminate|].
  destruct now; [|exact H]. unfold step_fresh in *. destruct (op_eq_dec x o); [exact H|].
  cbn [andb] in H. now apply IH.
Qed.

Lemma flow_tail : forall o k p q now, flow o k q false = true -> flow o k (p ++ q) now = true.
Proof. intros. rewrite flow_app. now apply flow_mono. Qed.

Lemma forallb_frame_app : forall k p q,
  forallb (fun x => negb (fmem k (outs x))) (p ++ q) =
  forallb (fun x => negb (fmem k (outs x))) p && forallb (fun x => negb (fmem k (outs x))) q.
Proof. intros. apply forallb_app. Qed.

(* no operation before a selected one writes field k *)
Fixpoint unwritten_at (at_ : op -> bool) (k : fld) (p : list op) (now : bool) : bool :=
  match p with
  | [] => true
  | x :: r => (negb (at_ x) || now) && unwritten_at at_ k r (now && negb (fmem k (outs x)))
  end.

Lemma unwritten_at_sound : forall den dt gamma at_ k p now s0 s p1 x p2,
  (now = true -> s k = s0 k) ->
  unwritten_at at_ k p now = true -> p = p1 ++ x :: p2 -> at_ x = true ->
  run den dt gamma p1 s k = s0 k.
Proof.
  intros den dt gamma at_ k p. induction p as [|y r IH]; intros now s0 s p1 x p2 Hnow H Hp Hx.
  - destruct p1; discriminate.
  - cbn [unwritten_at] in H. apply andb_true_iff in H. destruct H as [H1 H2].
    destruct p1 as [|z p1].
    + assert (y = x) by (cbn in Hp; congruence). subst y. rewrite Hx in H1. cbn in H1. cbn. auto.
    + assert (y = z /\ r = p1 ++ x :: p2) as [-> ->] by (split; cbn in Hp; congruence).
      change (run den dt gamma p1 (exec den dt gamma s z) k = s0 k).
      eapply IH; eauto. intros H3. apply andb_true_iff in H3. destruct H3 as [H3 H4].
      apply negb_true_iff in H4. apply fmem_not_in in H4. rewrite exec_out by exact H4. auto.
Qed.
