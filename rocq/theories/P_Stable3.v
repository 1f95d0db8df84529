(** C70, continued: implicit-explicit pairs and unconditional schemes. *)

From Coq Require Import Reals List String Arith Lia Lra FunctionalExtensionality.
From Verif Require Import RK_Model RK_Spec RK_Proofs RK_Proofs4 Cfl_Model Stable_Spec Stable_Proofs P_Stable P_Stable2.
Import ListNotations.
Open Scope R_scope.

(** ** Implicit-explicit pairs *)

Definition averaging2 (n : nat) (aI : nat -> nat -> R) (bI : nat -> R) (aE : nat -> nat -> R) (bE : nat -> R)
    (rI rE : R) (alI alE : nat -> nat -> R) (v : nat -> R) : Prop :=
  0 < rI /\ 0 < rE /\
  (forall i j, (i <= n)%nat -> (j < n)%nat -> 0 <= alI i j /\ 0 <= alE i j) /\
  (forall i, (i <= n)%nat -> 0 <= v i) /\
  (forall i, (i <= n)%nat -> v i + (rsum n (alE i) + rsum n (alI i)) = 1) /\
  (forall i j, (i < n)%nat -> (i < j)%nat -> (j < n)%nat -> alI i j = 0) /\
  (forall i j, (i < n)%nat -> (i <= j)%nat -> (j < n)%nat -> alE i j = 0) /\
  (forall i, (i < n)%nat -> alI i i < 1) /\
  (forall i j, (i <= n)%nat -> (j < n)%nat ->
     rE * row n aE bE i j = alE i j + rE * rsum n (fun k => (alE i k + alI i k) * aE k j) /\
     rI * row n aI bI i j = alI i j + rI * rsum n (fun k => (alE i k + alI i k) * aI k j)) /\
  (forall i j, (i < n)%nat -> (i < j)%nat -> (j < n)%nat -> aI i j = 0) /\
  (forall i j, (i < n)%nat -> (i <= j)%nat -> (j < n)%nat -> aE i j = 0).

Lemma along_exact {D} (u : D -> R) h n i w k : (i < n)%nat ->
  (forall j, (i <= j)%nat -> (j < n)%nat -> w j = 0) ->
  along u h i w k = along u h n w k.
Proof.
  intros Hi Hw. rewrite !along_rsum. apply functional_extensionality; intros x. f_equal. f_equal.
  symmetry. apply rsum_cut; [lia|]. intros j Hj. rewrite Hw by lia. ring.
Qed.

Lemma euler_room r tau dt : 0 < r -> 0 <= dt <= r * tau -> 0 <= dt / r <= tau.
Proof.
  intros Hr Hdt. split.
  - apply Rmult_le_pos; [lra|]. left. apply Rinv_0_lt_compat. exact Hr.
  - apply Rmult_le_reg_r with r; [exact Hr|]. unfold Rdiv. rewrite Rmult_assoc, Rinv_l by lra. lra.
Qed.

Lemma combine_rows n (al w : nat -> R) (a : nat -> nat -> R) r (k : nat -> R) (f : nat -> R) : r <> 0 ->
  (forall j, (j < n)%nat -> r * f j = w j + r * rsum n (fun m => al m * a m j)) ->
  rsum n (fun j => f j * k j) = / r * rsum n (fun j => w j * k j) + rsum n (fun m => al m * rsum n (fun j => a m j * k j)).
Proof.
  intros Hr Hrel.
  rewrite (rsum_ext n (fun j => f j * k j) (fun j => / r * (w j * k j) + rsum n (fun m => al m * a m j * k j))).
  - rewrite rsum_plus, rsum_scal. f_equal. rewrite rsum_swap. apply rsum_ext. intros m Hm.
    rewrite <- rsum_scal. apply rsum_ext. intros; ring.
  - intros j Hj. rewrite (rsum_scal_r n (k j) (fun m => al m * a m j)).
    replace (f j) with (/ r * (r * f j)) by (field; exact Hr). rewrite (Hrel j Hj). field. exact Hr.
Qed.

Lemma averaged_imex {D Env} n aI bI aE bE rI rE alI alE v (GI : Env -> (D -> R) -> (D -> R) -> D -> R)
    (FE : Env -> (D -> R) -> D -> R) dt (eI eE : nat -> Env) u u' N tI tE :
  averaging2 n aI bI aE bE rI rE alI alE v -> convex_measure N ->
  (forall i w, (i < n)%nat -> euler_bounded N tI (fun y => GI (eI i) y w)) ->
  (forall i, (i < n)%nat -> euler_bounded N tE (FE (eE i))) ->
  0 <= dt <= rI * tI -> dt <= rE * tE ->
  imex_step n aI bI aE bE GI FE dt eI eE u u' -> N u' <= N u.
Proof.
  intros (HrI & HrE & Hal & Hv & Hsum & HupI & HupE & Hd & Hrel & HlowI & HlowE) HN HBI HBE HdI HdE (kI & kE & Hk & Hu').
  assert (HhI := euler_room rI tI dt HrI HdI). assert (HhE := euler_room rE tE dt HrE (conj (proj1 HdI) HdE)).
  set (hI := dt / rI) in *. set (hE := dt / rE) in *.
  set (y := fun i => along (along u dt n (row n aE bE i) kE) dt n (row n aI bI i) kI).
  assert (Hy : forall i, (i < n)%nat -> along (along u dt i (aE i) kE) dt (S i) (aI i) kI = y i).
  { intros i Hi. unfold y, row. replace (Nat.ltb i n) with true by (symmetry; apply Nat.ltb_lt; exact Hi).
    rewrite (along_full _ dt n i (aI i) kI Hi) by (intros j Hj1 Hj2; apply HlowI; assumption).
    rewrite (along_exact u dt n i (aE i) kE Hi) by (intros j Hj1 Hj2; apply HlowE; assumption). reflexivity. }
  set (zI := fun i x => y i x + hI * kI i x). set (zE := fun i x => y i x + hE * kE i x).
  assert (Hrep : forall i, (i <= n)%nat ->
     y i = fun x => v i * u x + (rsum n (fun j => alE i j * zE j x) + rsum n (fun j => alI i j * zI j x))).
  { intros i Hi. apply functional_extensionality; intros x. unfold zI, zE.
    rewrite (rsum_ext n (fun j => alE i j * (y j x + hE * kE j x)) (fun j => alE i j * y j x + hE * (alE i j * kE j x))) by (intros; ring).
    rewrite (rsum_ext n (fun j => alI i j * (y j x + hI * kI j x)) (fun j => alI i j * y j x + hI * (alI i j * kI j x))) by (intros; ring).
    rewrite !rsum_plus, !rsum_scal.
    set (SE := rsum n (fun j => alE i j * kE j x)). set (SI := rsum n (fun j => alI i j * kI j x)).
    assert (Ey : forall j, (j < n)%nat -> y j x = u x + dt * rsum n (fun l => aE j l * kE l x) + dt * rsum n (fun l => aI j l * kI l x)).
    { intros j Hj. unfold y, row. replace (Nat.ltb j n) with true by (symmetry; apply Nat.ltb_lt; exact Hj).
      rewrite !along_rsum. reflexivity. }
    assert (Es : rsum n (fun j => alE i j * y j x) + rsum n (fun j => alI i j * y j x)
       = (rsum n (alE i) + rsum n (alI i)) * u x
         + dt * rsum n (fun m => (alE i m + alI i m) * rsum n (fun l => aE m l * kE l x))
         + dt * rsum n (fun m => (alE i m + alI i m) * rsum n (fun l => aI m l * kI l x))).
    { rewrite <- !rsum_scal. rewrite <- rsum_plus. rewrite <- (rsum_plus n (alE i) (alI i)).
      rewrite <- rsum_scal_r. rewrite <- !rsum_plus. apply rsum_ext. intros j Hj. rewrite (Ey j Hj). ring. }
    assert (EE := combine_rows n (fun m => alE i m + alI i m) (alE i) aE rE (fun l => kE l x) (row n aE bE i)
                    ltac:(lra) (fun j Hj => proj1 (Hrel i j Hi Hj))). cbv beta in EE.
    assert (EI := combine_rows n (fun m => alE i m + alI i m) (alI i) aI rI (fun l => kI l x) (row n aI bI i)
                    ltac:(lra) (fun j Hj => proj2 (Hrel i j Hi Hj))). cbv beta in EI.
    unfold y at 1. rewrite !along_rsum. rewrite EE, EI. fold SE SI.
    replace (v i) with (1 - (rsum n (alE i) + rsum n (alI i))) by (rewrite <- (Hsum i Hi); ring).
    set (P := rsum n (fun j => alE i j * y j x)) in *. set (Q := rsum n (fun j => alI i j * y j x)) in *.
    unfold hE, hI. 
    replace ((1 - (rsum n (alE i) + rsum n (alI i))) * u x + (P + dt / rE * SE + (Q + dt / rI * SI)))
      with ((1 - (rsum n (alE i) + rsum n (alI i))) * u x + (P + Q) + dt / rE * SE + dt / rI * SI) by ring.
    rewrite Es. field. lra. }
  assert (HzI : forall i, (i < n)%nat -> N (zI i) <= N (y i)).
  { intros i Hi. destruct (Hk i Hi) as [K1 _]. cbv zeta in K1. rewrite (Hy i Hi) in K1.
    unfold zI. rewrite K1. apply (shorter_euler N tI hI _ HN HhI (HBI i _ Hi)). }
  assert (HzE : forall i, (i < n)%nat -> N (zE i) <= N (y i)).
  { intros i Hi. destruct (Hk i Hi) as [_ K2]. cbv zeta in K2. rewrite (Hy i Hi) in K2.
    unfold zE. rewrite K2. apply (shorter_euler N tE hE _ HN HhE (HBE i Hi)). }
  assert (Hbound : forall i, (i <= n)%nat ->
     N (y i) <= v i * N u + (rsum n (fun j => alE i j * N (zE j)) + rsum n (fun j => alI i j * N (zI j)))).
  { intros i Hi.
    set (w := fun j => if Nat.ltb j n then alE i j else alI i (j - n)%nat).
    set (z := fun j => if Nat.ltb j n then zE j else zI (j - n)%nat).
    assert (Esplit : forall g h : nat -> R,
       rsum (n + n) (fun j => if Nat.ltb j n then g j else h (j - n)%nat) = rsum n g + rsum n h).
    { intros g h. rewrite rsum_split. f_equal; apply rsum_ext; intros j Hj.
      - replace (Nat.ltb j n) with true by (symmetry; apply Nat.ltb_lt; exact Hj). reflexivity.
      - replace (Nat.ltb (n + j) n) with false by (symmetry; apply Nat.ltb_ge; lia). f_equal. lia. }
    assert (J := jensen1 N (n + n) (v i) u w z HN (Hv i Hi)).
    replace (fun x => v i * u x + rsum (n + n) (fun j => w j * z j x)) with (y i) in J.
    2:{ rewrite (Hrep i Hi). apply functional_extensionality; intros x.
        rewrite <- (Esplit (fun j => alE i j * zE j x) (fun j => alI i j * zI j x)).
        f_equal. apply rsum_ext. intros j Hj. unfold w, z. destruct (Nat.ltb j n); reflexivity. }
    replace (rsum (n + n) (fun j => w j * N (z j)))
      with (rsum n (fun j => alE i j * N (zE j)) + rsum n (fun j => alI i j * N (zI j))) in J.
    2:{ rewrite <- Esplit. apply rsum_ext. intros j Hj. unfold w, z. destruct (Nat.ltb j n); reflexivity. }
    apply J.
    - intros j Hj. unfold w. destruct (Nat.ltb j n) eqn:E.
      + apply Nat.ltb_lt in E. apply (Hal i j Hi E).
      + apply Nat.ltb_ge in E. apply (Hal i (j - n)%nat Hi). lia.
    - unfold w. rewrite (Esplit (alE i) (alI i)). apply Hsum. exact Hi. }
  assert (Hle : forall i m, (i <= n)%nat ->
     (forall j, (j < n)%nat -> alE i j * N (zE j) <= alE i j * m) ->
     rsum n (fun j => alE i j * N (zE j)) <= rsum n (alE i) * m).
  { intros i m Hi H. assert (G : 0 <= rsum n (fun j => alE i j * m - alE i j * N (zE j))).
    { apply rsum_nonneg. intros j Hj. assert (A := H j Hj). lra. }
    rewrite rsum_minus, rsum_scal_r in G. lra. }
  assert (Hstage : forall i, (i < n)%nat -> N (y i) <= N u).
  { intros i. induction i as [i IH] using lt_wf_ind. intros Hi.
    assert (B := Hbound i (Nat.lt_le_incl _ _ Hi)).
    assert (LE : rsum n (fun j => alE i j * N (zE j)) <= rsum n (alE i) * N u).
    { apply Hle; [lia|]. intros j Hj. destruct (Nat.lt_ge_cases j i) as [Hji|Hji].
      - apply Rmult_le_compat_l; [apply (Hal i j); lia|]. eapply Rle_trans; [apply HzE; exact Hj|apply IH; assumption].
      - rewrite (HupE i j Hi Hji Hj). lra. }
    assert (LI : rsum n (fun j => alI i j * N (zI j))
                  <= rsum n (fun j => alI i j * (if Nat.eqb j i then N (y i) else N u))).
    { assert (G : 0 <= rsum n (fun j => alI i j * (if Nat.eqb j i then N (y i) else N u) - alI i j * N (zI j))).
      { apply rsum_nonneg. intros j Hj. destruct (Nat.eqb j i) eqn:E.
        - apply Nat.eqb_eq in E. subst j. assert (H : 0 <= alI i i) by (apply (Hal i i); lia).
          assert (A := Rmult_le_compat_l _ _ _ H (HzI i Hi)). lra.
        - apply Nat.eqb_neq in E. destruct (Nat.lt_ge_cases i j) as [Hij|Hij].
          + rewrite (HupI i j Hi Hij Hj). lra.
          + assert (Hji : (j < i)%nat) by lia. assert (H : 0 <= alI i j) by (apply (Hal i j); lia).
            assert (A := Rmult_le_compat_l _ _ _ H (Rle_trans _ _ _ (HzI j Hj) (IH j Hji Hj))). lra. }
      rewrite rsum_minus in G. lra. }
    assert (Heq : rsum n (fun j => alI i j * (if Nat.eqb j i then N (y i) else N u))
                  = rsum n (alI i) * N u + alI i i * (N (y i) - N u)).
    { rewrite (rsum_ext n _ (fun j => alI i j * N u + (if Nat.eqb j i then alI i i * (N (y i) - N u) else 0))).
      - rewrite rsum_plus, rsum_scal_r. f_equal.
        rewrite (rsum_single n i) by (try exact Hi; intros j Hj Hne; apply Nat.eqb_neq in Hne; rewrite Hne; reflexivity).
        rewrite Nat.eqb_refl. reflexivity.
      - intros j Hj. destruct (Nat.eqb j i) eqn:E; [apply Nat.eqb_eq in E; subst j|]; ring. }
    assert (Hs := Hsum i (Nat.lt_le_incl _ _ Hi)). assert (Hdi := Hd i Hi).
    assert (F1 : (1 - alI i i) * (N (y i) - N u) <= 0).
    { replace (v i) with (1 - (rsum n (alE i) + rsum n (alI i))) in B by lra. nra. }
    nra. }
  assert (B := Hbound n (Nat.le_refl n)).
  assert (LE : rsum n (fun j => alE n j * N (zE j)) <= rsum n (alE n) * N u).
  { apply Hle; [lia|]. intros j Hj. apply Rmult_le_compat_l; [apply (Hal n j); lia|].
    eapply Rle_trans; [apply HzE; exact Hj|apply Hstage; exact Hj]. }
  assert (LI : rsum n (fun j => alI n j * N (zI j)) <= rsum n (alI n) * N u).
  { assert (G : 0 <= rsum n (fun j => alI n j * N u - alI n j * N (zI j))).
    { apply rsum_nonneg. intros j Hj. assert (H : 0 <= alI n j) by (apply (Hal n j); lia).
      assert (A := Rmult_le_compat_l _ _ _ H (Rle_trans _ _ _ (HzI j Hj) (Hstage j Hj))). lra. }
    rewrite rsum_minus, rsum_scal_r in G. lra. }
  assert (Hyn : y n = u').
  { rewrite Hu'. unfold y, row. rewrite Nat.ltb_irrefl. reflexivity. }
  rewrite Hyn in B. assert (Hs := Hsum n (Nat.le_refl n)). nra.
Qed.

Ltac averaging2_tac :=
  match goal with |- averaging2 ?n _ _ _ _ _ _ _ _ _ =>
    let sn := eval cbv in (S n) in
    split; [lra|]; split; [lra|];
    split; [intros i j Hi Hj; apply Nat.lt_succ_r in Hi; split; cases2 i j sn n Hi Hj; numbers|];
    split; [intros i Hi; apply Nat.lt_succ_r in Hi; split_index i sn Hi; numbers|];
    split; [intros i Hi; apply Nat.lt_succ_r in Hi; split_index i sn Hi; numbers|];
    split; [intros i j Hi Hij Hj; cases2 i j n n Hi Hj; numbers|];
    split; [intros i j Hi Hij Hj; cases2 i j n n Hi Hj; numbers|];
    split; [intros i Hi; split_index i n Hi; numbers|];
    split; [intros i j Hi Hj; apply Nat.lt_succ_r in Hi; split; cases2 i j sn n Hi Hj; unfold row; numbers|];
    split; [intros i j Hi Hij Hj; cases2 i j n n Hi Hj; numbers|];
    intros i j Hi Hij Hj; cases2 i j n n Hi Hj; numbers
  end.

Lemma avg_IMEXLSPUM2 :
  averaging2 3 (ta DIRKLSPUM2Tab) (tb DIRKLSPUM2Tab) (ta ERKLSPUM2Tab) (tb ERKLSPUM2Tab) (3/4) (3/5)
    (table [[3/25; 0; 0]; [1793/8750; 3/25; 0]; [165297/1093750; 1023/12500; 3/25]; [30574899/240625000; 4839/62500; 294/1375]])
    (table [[0; 0; 0]; [11/25; 0; 0]; [1001/12500; 121/500; 0]; [35649/343750; 3/2500; 12/55]])
    (vect [22/25; 2057/8750; 710831/2187500; 5656991/21875000]).
Proof. averaging2_tac. Qed.

Lemma avg_IMEXLPUM2 :
  averaging2 3 (ta DIRKLPUM2Tab) (tb DIRKLPUM2Tab) (ta ERKLPUM2Tab) (tb ERKLPUM2Tab) (66/100) 1
    (table [[3/28; 0; 0]; [2025/21952; 3/28; 0]; [968775/13522432; 2325/17248; 3/28]; [1893929/27044864; 2971/34496; 9/56]])
    (table [[0; 0; 0]; [25/56; 0; 0]; [5375/34496; 25/56; 0]; [19/206976; 29/336; 1/3]])
    (vect [25/28; 7775/21952; 103475/1229312; 1942775/7375872]).
Proof. averaging2_tac. Qed.

(** A pair does keep bounds if both halves get half of their share: the
    explicit terms half of the declared coefficient, the implicit terms 3/4
    (LSPUM2) or 0.66 (LPUM2) of a forward Euler step *)
Theorem C70_imex_bounds TI TE cE cI :
  In (TI, TE, cE, cI) [(DIRKLSPUM2Tab, ERKLSPUM2Tab, 12/10, 3/4); (DIRKLPUM2Tab, ERKLPUM2Tab, 2, 66/100)] ->
  forall (D Env : Type) (GI : Env -> (D -> R) -> (D -> R) -> D -> R) (FE : Env -> (D -> R) -> D -> R)
    dt (eI eE : nat -> Env) u u' N tI tE,
  convex_measure N ->
  (forall i w, (i < 3)%nat -> euler_bounded N tI (fun y => GI (eI i) y w)) ->
  (forall i, (i < 3)%nat -> euler_bounded N tE (FE (eE i))) ->
  0 <= dt -> dt <= cI * tI -> dt <= cE / 2 * tE ->
  imex_step (ns TE) (ta TI) (tb TI) (ta TE) (tb TE) GI FE dt eI eE u u' -> N u' <= N u.
Proof.
  intros Hin D Env GI FE dt eI eE u u' N tI tE HN HI HE H0 H1 H2 Hst. cbn [In] in Hin.
  destruct Hin as [Hin|[Hin|[]]];
    apply (f_equal snd) in Hin as E1; apply (f_equal (fun p => snd (fst p))) in Hin as E2;
    apply (f_equal (fun p => snd (fst (fst p)))) in Hin as E3; apply (f_equal (fun p => fst (fst (fst p)))) in Hin;
    cbn [fst snd] in *; subst TI TE cE cI.
  - apply (averaged_imex _ _ _ _ _ _ _ _ _ _ GI FE dt eI eE u u' N tI tE avg_IMEXLSPUM2 HN HI HE); (lra || exact Hst).
  - apply (averaged_imex _ _ _ _ _ _ _ _ _ _ GI FE dt eI eE u u' N tI tE avg_IMEXLPUM2 HN HI HE); (lra || exact Hst).
Qed.

(** (Refuted) At the declared coefficient, which is that of the explicit half
    alone, any implicit term however weak can break the bound. *)
Definition pull_E (t : R) (i : nat) (v : nat -> R) (x : nat) : R :=
  match x with 1%nat => (v 0%nat - v 1%nat) / t | _ => 0 end.
Definition pull_I (t : R) (i : nat) (v w : nat -> R) (x : nat) : R :=
  match x with
  | 1%nat => (v 0%nat - v 1%nat) / t
  | 2%nat => if Nat.eqb i 1 then (v 1%nat - v 2%nat) / t else 0
  | _ => 0
  end.

Lemma pull_E_ok t i : 0 < t -> linear_operator (pull_E t i) /\ euler_bounded max_abs t (pull_E t i).
Proof.
  intros Ht. split.
  - split; intros; unfold pull_E; destruct x as [|[|x]]; try ring; field; lra.
  - intros v. destruct (max_abs_ge v) as (V0 & V1 & V2). apply max_abs_bound; unfold pull_E.
    + replace (v 0%nat + t * 0) with (v 0%nat) by ring. exact V0.
    + replace (v 1%nat + t * ((v 0%nat - v 1%nat) / t)) with (v 0%nat) by (field; lra). exact V0.
    + replace (v 2%nat + t * 0) with (v 2%nat) by ring. exact V2.
Qed.

Lemma pull_I_ok t i w : 0 < t ->
  linear_operator (fun v => pull_I t i v w) /\ euler_bounded max_abs t (fun v => pull_I t i v w).
Proof.
  intros Ht. split.
  - split; intros; unfold pull_I; destruct x as [|[|[|x]]]; try destruct (Nat.eqb i 1); try ring; field; lra.
  - intros v. destruct (max_abs_ge v) as (V0 & V1 & V2). apply max_abs_bound; unfold pull_I.
    + replace (v 0%nat + t * 0) with (v 0%nat) by ring. exact V0.
    + replace (v 1%nat + t * ((v 0%nat - v 1%nat) / t)) with (v 0%nat) by (field; lra). exact V0.
    + destruct (Nat.eqb i 1).
      * replace (v 2%nat + t * ((v 1%nat - v 2%nat) / t)) with (v 1%nat) by (field; lra). exact V1.
      * replace (v 2%nat + t * 0) with (v 2%nat) by ring. exact V2.
Qed.

Theorem C70_imex_declared_refuted name TI TE cI cE c tI tE :
  In (name, TI, TE, cI, cE) [("IMEXLSPUM2"%string, DIRKLSPUM2Tab, ERKLSPUM2Tab, Some (434/100), Some (12/10));
                             ("IMEXLPUM2"%string, DIRKLPUM2Tab, ERKLPUM2Tab, Some (434/100), Some 2)] ->
  imex_cfl cI cE = Some c -> 0 < tI -> 0 < tE ->
  exists (GI : nat -> (nat -> R) -> (nat -> R) -> nat -> R) (FE : nat -> (nat -> R) -> nat -> R) (u u' : nat -> R),
    convex_measure max_abs /\
    (forall i w, linear_operator (fun v => GI i v w) /\ euler_bounded max_abs tI (fun v => GI i v w)) /\
    (forall i, linear_operator (FE i) /\ euler_bounded max_abs tE (FE i)) /\
    imex_step (ns TE) (ta TI) (tb TI) (ta TE) (tb TE) GI FE (c * tE) (fun i => i) (fun i => i) u u' /\
    max_abs u < max_abs u'.
Proof.
  intros Hin Hc HtI HtE. unfold imex_cfl in Hc. cbn [In] in Hin.
  exists (pull_I tI), (pull_E tE), (fun x => match x with 0%nat => 1 | 1%nat => -1 | 2%nat => 1 | _ => 0 end).
  destruct Hin as [Hin|[Hin|[]]];
    apply (f_equal snd) in Hin as E1; apply (f_equal (fun p => snd (fst p))) in Hin as E2;
    apply (f_equal (fun p => snd (fst (fst p)))) in Hin as E3; apply (f_equal (fun p => snd (fst (fst (fst p))))) in Hin;
    cbn [fst snd] in *; rewrite <- E1 in Hc; subst TI TE; apply (f_equal (fun o => match o with Some c => c | None => 0 end)) in Hc;
    cbv beta iota in Hc; subst c.
  - set (r := 12/10 * tE / tI).
    assert (Hr : 0 < r) by (unfold r; apply Rmult_lt_0_compat; [lra|apply Rinv_0_lt_compat; exact HtI]).
    assert (Et : tI = 12/10 * tE / r) by (unfold r; field; lra). clearbody r. subst tI.
    set (g := 1 + r * (2/11)). assert (Hg : 0 < g) by (unfold g; lra).
    set (d0 := 2 / g). set (d1 := (2 - d0 - r * (205/462) * d0) / g).
    set (d2 := (2 - 12/10 * (11/24) * (d0 + d1) - r * (2033/4620 * d0 + 21/110 * d1)) / g).
    set (f := - r * d1 / g).
    assert (Hf : 0 < f).
    { assert (E : f = 2 * (r * (r * (11/42))) / (g * g * g)).
      { unfold f, d1, d0. replace (r * (11/42)) with (1 + r * (205/462) - g) by (unfold g; field). field. lra. }
      rewrite E. apply Rmult_lt_0_compat; [nra|]. apply Rinv_0_lt_compat. repeat apply Rmult_lt_0_compat; exact Hg. }
    set (U := 1 + 1/5 * f).
    set (V := -1 + (12/10 + r) * (24/55 * d0 + 1/5 * d1 + 4/11 * d2)).
    exists (fun x => match x with 0%nat => 1 | 1%nat => V | 2%nat => U | _ => 0 end).
    split; [exact max_abs_convex|]. split; [intros i w; apply pull_I_ok; exact HtI|].
    split; [intros i; apply pull_E_ok; exact HtE|]. split.
    + exists (fun i x => match x with
        | 1%nat => r * match i with 0%nat => d0 | 1%nat => d1 | _ => d2 end / (12/10 * tE)
        | 2%nat => match i with 1%nat => f | _ => 0 end / (12/10 * tE) | _ => 0 end),
        (fun i x => match x with
        | 1%nat => match i with 0%nat => d0 | 1%nat => d1 | _ => d2 end / tE | _ => 0 end).
      split.
      * intros i Hi. cbn in Hi. cbv zeta. split_index i 3%nat Hi; split; rewrite !along_rsum; apply functional_extensionality; intros x;
          destruct x as [|[|[|x]]]; unfold pull_I, pull_E; cbn -[Rplus Rmult Rminus Rdiv Ropp IZR Rinv]; try ring;
          unfold f, d2, d1, d0, g; field; repeat split; try lra; unfold g in Hg; lra.
      * rewrite !along_rsum; apply functional_extensionality; intros x;
          destruct x as [|[|[|x]]]; cbn -[Rplus Rmult Rminus Rdiv Ropp IZR Rinv]; try ring; unfold U, V; field; lra.
    + assert (HU : 1 < U) by (unfold U; lra).
      destruct (max_abs_ge (fun x => match x with 0%nat => 1 | 1%nat => V | 2%nat => U | _ => 0 end)) as (_ & _ & H).
      cbv beta iota in H. rewrite (Rabs_right U) in H by lra.
      eapply Rle_lt_trans; [|eapply Rlt_le_trans; [exact HU|exact H]].
      apply max_abs_bound; cbv beta iota; try (rewrite Rabs_R1; lra).
      rewrite Rabs_left by lra. lra.
  - set (r := 2 * tE / tI).
    assert (Hr : 0 < r) by (unfold r; apply Rmult_lt_0_compat; [lra|apply Rinv_0_lt_compat; exact HtI]).
    assert (Et : tI = 2 * tE / r) by (unfold r; field; lra). clearbody r. subst tI.
    set (g := 1 + r * (2/11)). assert (Hg : 0 < g) by (unfold g; lra).
    set (d0 := 2 / g). set (d1 := (2 - d0 - r * (41/154) * d0) / g).
    set (d2 := (2 - (d0 + d1) - r * (289/847 * d0 + 42/121 * d1)) / g).
    set (f := - r * d1 / g).
    assert (Hf : 0 < f).
    { assert (E : f = 2 * (r * (r * (13/154))) / (g * g * g)).
      { unfold f, d1, d0. replace (r * (13/154)) with (1 + r * (41/154) - g) by (unfold g; field). field. lra. }
      rewrite E. apply Rmult_lt_0_compat; [nra|]. apply Rinv_0_lt_compat. repeat apply Rmult_lt_0_compat; exact Hg. }
    set (U := 1 + 1/3 * f).
    set (V := -1 + (2 + r) * (1/3 * d0 + 1/3 * d1 + 1/3 * d2)).
    exists (fun x => match x with 0%nat => 1 | 1%nat => V | 2%nat => U | _ => 0 end).
    split; [exact max_abs_convex|]. split; [intros i w; apply pull_I_ok; exact HtI|].
    split; [intros i; apply pull_E_ok; exact HtE|]. split.
    + exists (fun i x => match x with
        | 1%nat => r * match i with 0%nat => d0 | 1%nat => d1 | _ => d2 end / (2 * tE)
        | 2%nat => match i with 1%nat => f | _ => 0 end / (2 * tE) | _ => 0 end),
        (fun i x => match x with
        | 1%nat => match i with 0%nat => d0 | 1%nat => d1 | _ => d2 end / tE | _ => 0 end).
      split.
      * intros i Hi. cbn in Hi. cbv zeta. split_index i 3%nat Hi; split; rewrite !along_rsum; apply functional_extensionality; intros x;
          destruct x as [|[|[|x]]]; unfold pull_I, pull_E; cbn -[Rplus Rmult Rminus Rdiv Ropp IZR Rinv]; try ring;
          unfold f, d2, d1, d0, g; field; repeat split; try lra; unfold g in Hg; lra.
      * rewrite !along_rsum; apply functional_extensionality; intros x;
          destruct x as [|[|[|x]]]; cbn -[Rplus Rmult Rminus Rdiv Ropp IZR Rinv]; try ring; unfold U, V; field; lra.
    + assert (HU : 1 < U) by (unfold U; lra).
      destruct (max_abs_ge (fun x => match x with 0%nat => 1 | 1%nat => V | 2%nat => U | _ => 0 end)) as (_ & _ & H).
      cbv beta iota in H. rewrite (Rabs_right U) in H by lra.
      eapply Rle_lt_trans; [|eapply Rlt_le_trans; [exact HU|exact H]].
      apply max_abs_bound; cbv beta iota; try (rewrite Rabs_R1; lra).
      rewrite Rabs_left by lra. lra.
Qed.

(** ** Unconditional does not mean bound preserving *)

Lemma undershoot_convex : convex_measure undershoot.
Proof.
  intros u v a Ha. unfold undershoot.
  assert (U0 := Rmax_l 0 (- u tt)). assert (U1 := Rmax_r 0 (- u tt)).
  assert (V0 := Rmax_l 0 (- v tt)). assert (V1 := Rmax_r 0 (- v tt)).
  apply Rmax_lub; nra.
Qed.

Definition decay (v : unit -> R) (x : unit) : R := - v x.

Lemma decay_ok : linear_operator decay /\ euler_bounded undershoot 1 decay.
Proof.
  split; [split; intros; unfold decay; ring|].
  intros v. unfold undershoot, decay.
  replace (- (v tt + 1 * - v tt)) with 0 by ring. rewrite Rmax_left by lra. apply Rmax_l.
Qed.

(** (Refuted) Every scheme declared unconditionally stable except backward
    Euler turns a decaying positive value negative when the step is long. *)
Theorem C70_unconditional_bounds_refuted name T :
  In (name, T, None) implicit_schemes -> name <> "BackwardEuler"%string ->
  linear_operator decay /\ convex_measure undershoot /\ euler_bounded undershoot 1 decay /\
  exists u', implicit_step (ns T) (ta T) (tb T) (fun _ : unit => decay) 10 (fun _ => tt) (fun _ => 1) u' /\
    undershoot (fun _ => 1) = 0 /\ undershoot u' > 0.
Proof.
  intros Hin Hname. destruct decay_ok as [HL HE].
  split; [exact HL|]. split; [exact undershoot_convex|]. split; [exact HE|].
  assert (Hone : undershoot (fun _ => 1) = 0) by (unfold undershoot; apply Rmax_left; lra).
  assert (Hneg : forall u', u' tt < 0 -> undershoot u' > 0).
  { intros u' H. unfold undershoot. apply Rlt_gt. eapply Rlt_le_trans; [|apply Rmax_r]. lra. }
  cbn [In implicit_schemes] in Hin.
  repeat (destruct Hin as [Hin|Hin]; [try discriminate Hin;
    apply (f_equal (fun p => fst (fst p))) in Hin as En; apply (f_equal (fun p => snd (fst p))) in Hin;
    cbn [fst snd] in Hin, En; subst T|]); [..|contradiction].
  1:{ subst name. contradiction Hname. reflexivity. }
  all: cbn [ns BackwardEulerTab ImplicitMidpointTab CrankNicolsonTab DIRK22Tab DIRK23Tab DIRK33Tab DIRK43Tab ESDIRKTrapezoidTab tab List.length].
  - set (k := fun (i : nat) (_ : unit) => - (1/6)).
    eexists. split; [exists k; split; [|reflexivity]|].
    + intros i Hi. rewrite along_rsum. apply functional_extensionality; intros x. split_index i 1%nat Hi.
      unfold decay; cbn -[Rplus Rmult Rminus Rdiv Ropp IZR Rinv k]; unfold k; field.
    + split; [exact Hone|]. apply Hneg. rewrite along_rsum. cbn -[Rplus Rmult Rminus Rdiv Ropp IZR Rinv k]. unfold k. lra.
  - set (k := fun (i : nat) (_ : unit) => match i with 0%nat => -1 | _ => 4/6 end).
    eexists. split; [exists k; split; [|reflexivity]|].
    + intros i Hi. rewrite along_rsum. apply functional_extensionality; intros x. split_index i 2%nat Hi;
      unfold decay; cbn -[Rplus Rmult Rminus Rdiv Ropp IZR Rinv k]; unfold k; field.
    + split; [exact Hone|]. apply Hneg. rewrite along_rsum. cbn -[Rplus Rmult Rminus Rdiv Ropp IZR Rinv k]. unfold k. lra.
  - destruct sqrt2_facts as (H2 & Ha & Hb).
    assert (Hg : gamma22 = 1 - sqrt 2 / 2) by (unfold gamma22; field).
    assert (Hs : 14/10 < sqrt 2) by nra. set (q := gamma22) in *. assert (Hq : 1/4 < q < 3/10) by lra. assert (Hq2 : 2 * q * q = 4 * q - 1) by (rewrite Hg; nra).
    set (k0 := - / (1 + 10 * q)). set (k1 := - (1 + 10 * ((1 - q) * k0)) / (1 + 10 * q)).
    set (k := fun (i : nat) (_ : unit) => match i with 0%nat => k0 | _ => k1 end).
    eexists. split; [exists k; split; [|reflexivity]|].
    + intros i Hi. rewrite along_rsum. apply functional_extensionality; intros x. split_index i 2%nat Hi;
      unfold decay; cbn -[Rplus Rmult Rminus Rdiv Ropp IZR Rinv k gamma22]; fold q; unfold k, k1, k0; field; lra.
    + split; [exact Hone|]. apply Hneg. rewrite along_rsum. cbn -[Rplus Rmult Rminus Rdiv Ropp IZR Rinv k gamma22]. fold q. unfold k.
      assert (E : 1 + 10 * (0 + (1 - q) * k0 + q * k1) = (1 - 10 * (1 - 2 * q)) / ((1 + 10 * q) * (1 + 10 * q))).
      { unfold k1, k0. apply Rmult_eq_reg_r with ((1 + 10 * q) * (1 + 10 * q)); [|nra].
        field_simplify; [|lra|lra]. nra. }
      rewrite E. apply Ropp_lt_cancel. rewrite Ropp_0. unfold Rdiv. rewrite Ropp_mult_distr_l.
      apply Rmult_lt_0_compat; [lra|]. apply Rinv_0_lt_compat. nra.
  - assert (H3 : sqrt 3 * sqrt 3 = 3) by (apply sqrt_sqrt; lra). assert (Hp : 0 <= sqrt 3) by apply sqrt_pos.
    assert (Hr : 17/10 < sqrt 3 < 18/10) by (split; nra).
    assert (Hg : gamma23 = 1/2 + sqrt 3 / 6) by (unfold gamma23; field).
    set (q := gamma23) in *. assert (Hq : 78/100 < q < 8/10) by lra.
    set (k0 := - / (1 + 10 * q)). set (k1 := - (1 + 10 * ((1 - 2 * q) * k0)) / (1 + 10 * q)).
    set (k := fun (i : nat) (_ : unit) => match i with 0%nat => k0 | _ => k1 end).
    eexists. split; [exists k; split; [|reflexivity]|].
    + intros i Hi. rewrite along_rsum. apply functional_extensionality; intros x. split_index i 2%nat Hi;
      unfold decay; cbn -[Rplus Rmult Rminus Rdiv Ropp IZR Rinv k gamma23]; fold q; unfold k, k1, k0; field; lra.
    + split; [exact Hone|]. apply Hneg. rewrite along_rsum. cbn -[Rplus Rmult Rminus Rdiv Ropp IZR Rinv k gamma23]. unfold k.
      assert (E : 1 + 10 * (0 + 1/2 * k0 + 1/2 * k1)
                  = - (10 * (1 + 10 * q) - (1 + 10 * q) * (1 + 10 * q) - 50 * (1 - 2 * q)) / ((1 + 10 * q) * (1 + 10 * q))).
      { unfold k1, k0. field. lra. }
      rewrite E. apply Ropp_lt_cancel. rewrite Ropp_0. unfold Rdiv. rewrite Ropp_mult_distr_l.
      apply Rmult_lt_0_compat; [nra|]. apply Rinv_0_lt_compat. nra.
  - set (q := gamma33). assert (Hq : q = 4358665215/10000000000) by reflexivity.
    set (k0 := - / (1 + 10 * q)). set (k1 := - (1 + 10 * ((1 - q) / 2 * k0)) / (1 + 10 * q)).
    set (k2 := - (1 + 10 * (b1_33 * k0 + b2_33 * k1)) / (1 + 10 * q)).
    set (k := fun (i : nat) (_ : unit) => match i with 0%nat => k0 | 1%nat => k1 | _ => k2 end).
    assert (Hz : 1 + 10 * q <> 0) by (rewrite Hq; lra).
    eexists. split; [exists k; split; [|reflexivity]|].
    + intros i Hi. rewrite along_rsum. apply functional_extensionality; intros x. split_index i 3%nat Hi;
      unfold decay; cbn -[Rplus Rmult Rminus Rdiv Ropp IZR Rinv k gamma33 b1_33 b2_33]; fold q; unfold k, k2, k1, k0; field; exact Hz.
    + split; [exact Hone|]. apply Hneg. rewrite along_rsum. cbn -[Rplus Rmult Rminus Rdiv Ropp IZR Rinv k gamma33 b1_33 b2_33]. unfold k, k2, k1, k0, b1_33, b2_33.
      fold q. rewrite Hq. lra.
  - set (k := fun (i : nat) (_ : unit) => match i with 0%nat => -1/6 | 1%nat => -13/108 | 2%nat => -133/648 | _ => 467/3888 end).
    eexists. split; [exists k; split; [|reflexivity]|].
    + intros i Hi. rewrite along_rsum. apply functional_extensionality; intros x. split_index i 4%nat Hi;
      unfold decay; cbn -[Rplus Rmult Rminus Rdiv Ropp IZR Rinv k]; unfold k; field.
    + split; [exact Hone|]. apply Hneg. rewrite along_rsum. cbn -[Rplus Rmult Rminus Rdiv Ropp IZR Rinv k]. unfold k. lra.
  - set (k := fun (i : nat) (_ : unit) => match i with 0%nat => -1 | _ => 4/6 end).
    eexists. split; [exists k; split; [|reflexivity]|].
    + intros i Hi. rewrite along_rsum. apply functional_extensionality; intros x. split_index i 2%nat Hi;
      unfold decay; cbn -[Rplus Rmult Rminus Rdiv Ropp IZR Rinv k]; unfold k; field.
    + split; [exact Hone|]. apply Hneg. rewrite along_rsum. cbn -[Rplus Rmult Rminus Rdiv Ropp IZR Rinv k]. unfold k. lra.
Qed.

Print Assumptions C70_imex_bounds.
Print Assumptions C70_imex_declared_refuted.
Print Assumptions C70_unconditional_bounds_refuted.
