(** C67: the assembled Schur complement and the block solve it is used in. *)

From mathcomp Require Import ssreflect ssrfun ssrbool eqtype ssrnat seq fintype bigop order.
From mathcomp Require Import ssralg ssrnum ssrint matrix mxalgebra rat.
From Verif Require Import Schur_Model.
Set Implicit Arguments.
Unset Strict Implicit.
Unset Printing Implicit Defensive.
Import GRing.Theory Num.Theory Order.Theory.
Local Open Scope ring_scope.

Section P.
Variable F : fieldType.
Variables m n : nat.
Notation blocks := (blocks F m n).

(** * Specification *)

(** The saddle point system with velocity block [A]. *)
Definition system (A : 'M[F]_m) (b : blocks) : 'M[F]_(m + n) :=
  block_mx A (b01 b) (b10 b) (b11 b).

(** A solver is exact if a reply that it reports as converged solves the
    system. *)
Definition exact_ksp (ksp : 'M[F]_n -> 'cV[F]_n -> 'cV[F]_n * int) : Prop :=
  forall op X, (0 <= (ksp op X).2)%R -> op *m (ksp op X).1 = X.

(* ------------------------------------------------------------------ *)

(** The operator of the inner solver is that of the current Jacobian, whatever
    was assembled before: D - C M^-1 B with the last blocks. *)
Theorem C67_operator (minv : 'M[F]_m) (b : blocks) (bs : seq blocks) :
  let s := history minv b bs in
  let c := last b bs in
  s_ksp s = Some (b11 c - b10 c *m minv *m b01 c) /\ s_inv s = minv.
Proof.
suff H : forall s c, s_inv s = minv ->
    s_ksp s = Some (b11 c - b10 c *m minv *m b01 c) ->
    let s' := foldl (@update F m n) s bs in
    s_ksp s' = Some (b11 (last c bs) - b10 (last c bs) *m minv *m b01 (last c bs))
    /\ s_inv s' = minv.
  apply: H => //; rewrite /initialize /update /= /aypx /matMult.
  by rewrite scaleN1r addrC.
elim: bs => [|x bs IH] s c Hi Hk //=.
apply: IH; first by rewrite /update /=.
rewrite /update /= /aypx /matMult Hi scaleN1r addrC.
by case: (s_plus s).
Qed.

(** When the velocity block is the matrix that was inverted, the block solve
    solves the whole system. *)
Theorem C67_fieldsplit_exact (M : 'M[F]_m) (minv : 'M[F]_m) (b : blocks) (bs : seq blocks)
  (ksp : 'M[F]_n -> 'cV[F]_n -> 'cV[F]_n * int) (f : 'cV[F]_m) (g : 'cV[F]_n) x y :
  M *m minv = 1%:M -> exact_ksp ksp ->
  fieldsplit (fun r => minv *m r) ksp (history minv b bs) (last b bs) f g = Done (x, y) ->
  system M (last b bs) *m col_mx x y = col_mx f g.
Proof.
move=> HM HK.
rewrite /fieldsplit /apply.
case: (C67_operator minv b bs) => -> _ /=.
set c := last b bs; set Sc := b11 c - _.
move: (HK Sc (g - b10 c *m (minv *m f))).
case: (ksp Sc _) => z r /= Hz; case: ifP => // /negbT; rewrite -leNgt => Hr.
case=> <- <-; rewrite /system mul_block_col.
have {Hz} Hz := Hz Hr; congr col_mx.
  by rewrite mulmxA HM mul1mx subrK.
rewrite mulmxBr mulmxBr.
rewrite -addrA -/c.
have -> : - (b10 c *m (minv *m (b01 c *m z))) + b11 c *m z = Sc *m z.
  by rewrite /Sc mulmxBl addrC !mulmxA.
by rewrite Hz mulmxA addrC subrK.
Qed.

(** And the reply is the only solution, if the Schur complement is regular. *)
Theorem C67_unique (M minv : 'M[F]_m) (c : blocks) (x x' : 'cV[F]_m) (y y' : 'cV[F]_n) :
  M *m minv = 1%:M ->
  (b11 c - b10 c *m minv *m b01 c) \in unitmx ->
  system M c *m col_mx x y = system M c *m col_mx x' y' -> x = x' /\ y = y'.
Proof.
move=> HM HS.
rewrite /system !mul_block_col => /eq_col_mx [E1 E2].
have HM' : minv *m M = 1%:M by apply: mulmx1C.
have X : forall (u : 'cV[F]_m) (v : 'cV[F]_n), minv *m (M *m u + b01 c *m v) = u + minv *m b01 c *m v.
  by move=> u v; rewrite mulmxDr !mulmxA HM' mul1mx.
have E3 : x + minv *m b01 c *m y = x' + minv *m b01 c *m y' by rewrite -!X E1.
have E4 : (b11 c - b10 c *m minv *m b01 c) *m y = (b11 c - b10 c *m minv *m b01 c) *m y'.
  have Y : forall (u : 'cV[F]_m) (v : 'cV[F]_n), (b11 c - b10 c *m minv *m b01 c) *m v =
     (b10 c *m u + b11 c *m v) - b10 c *m (u + minv *m b01 c *m v).
    move=> u v; rewrite mulmxBl mulmxDr !mulmxA opprD addrACA subrr add0r //.
  by rewrite (Y x) (Y x') E2 E3.
have E5 : y = y' by rewrite -(mulKmx HS y) E4 mulKmx.
split=> //; move: E3; rewrite E5; exact: addIr.
Qed.

(** A solve that does not converge raises, and never hands on a result. *)
Theorem C67_divergence ksp (s : pc F m n) X op :
  s_ksp s = Some op ->
  ((ksp op X).2 < 0)%R <-> apply ksp s X = RuntimeError.
Proof.
rewrite /apply => ->; case: (ksp op X) => z r /=.
by case: ifP => // H; split.
Qed.

(** The transposed solve, which adjoint solves need, is not available. *)
Theorem C67_transpose_refuted (s : pc F m n) X : applyTranspose s X = NotImplementedError.
Proof. by []. Qed.

End P.

(** * The elementwise inverse *)

(** When no two degrees of freedom of different cells interact (a
    discontinuous space), the elementwise inverse is the inverse of the whole
    matrix. *)
Theorem C67_elementwise_inverse (F : fieldType) m (C : eqType) (cell : 'I_m -> C)
  (M : 'M[F]_m) (local : C -> 'I_m -> 'I_m -> F) :
  (forall i j, cell i != cell j -> M i j = 0) ->
  (forall i j, cell i = cell j ->
     \sum_(k | cell k == cell i) M i k * local (cell i) k j = (i == j)%:R) ->
  M *m elementwise cell local = 1%:M /\ elementwise cell local *m M = 1%:M.
Proof.
move=> D L.
suff H : M *m elementwise cell local = 1%:M by split=> //; apply: mulmx1C.
apply/matrixP => i j; rewrite !mxE.
rewrite (bigID (fun k => cell k == cell i)) /=.
rewrite [X in _ + X]big1 ?addr0; last first.
  by move=> k H; rewrite D ?mul0r // eq_sym.
case: (altP (cell i =P cell j)) => E.
  rewrite -(L i j E); apply: eq_bigr => k /eqP Hk.
  by rewrite mxE Hk E eqxx.
rewrite big1; last first.
  by move=> k /eqP Hk; rewrite mxE Hk (negbTE E) mulr0.
by case: (altP (i =P j)) => // Eij; rewrite Eij eqxx in E.
Qed.

(** For a continuous space it is not: a degree of freedom shared by two cells
    gets the sum of their entries in the matrix, and the sum of the inverses of
    their entries in the assembled inverse. *)
Theorem C67_elementwise_inverse_cg_refuted :
  exists a b : 'M[rat_fieldType]_1, a \in unitmx /\ b \in unitmx /\
    (a + b) *m (invmx a + invmx b) != 1%:M.
Proof.
exists 1%:M, 1%:M; split; first exact: unitmx1; split; first exact: unitmx1.
rewrite invmx1 -mulr2n -scaler_nat -scalemxAl mul1mx scalerA -scalemx1.
by apply/eqP => /matrixP /(_ ord0 ord0); rewrite !mxE => /eqP.
Qed.

(** * Cases *)

(** A direct solver. *)
Definition lu (F : fieldType) n (op : 'M[F]_n) (X : 'cV[F]_n) : 'cV[F]_n * int :=
  if op \in unitmx then (invmx op *m X, 1) else (0, -1).

Lemma lu_exact (F : fieldType) n : exact_ksp (@lu F n).
Proof. by move=> op X; rewrite /lu; case: ifP => // H _ /=; rewrite mulKVmx. Qed.

Notation Q := rat_fieldType.
Definition b1 : blocks Q 1 1 := Blocks 1%:M 1%:M 0.

Lemma minus_one : - 1%:M = (-1)%:M :> 'M[Q]_1.
Proof. by rewrite raddfN. Qed.

Lemma lu_minus_one (X : 'cV[Q]_1) : lu (- 1%:M) X = (- X, 1).
Proof.
rewrite /lu minus_one unitmxE det_scalar1 unitrN1 invmx_scalar invrN1.
by rewrite -minus_one mulNmx mul1mx.
Qed.

(** The hypotheses of [C67_fieldsplit_exact] are met, and those of
    [C67_elementwise_inverse] too. *)
Example C67_case :
  fieldsplit (fun r => 1%:M *m r) (@lu Q 1) (history 1%:M b1 [:: b1]) b1 0 1%:M
      = Done (1%:M, - 1%:M) /\
  system 1%:M b1 *m col_mx 1%:M (- 1%:M) = col_mx 0 1%:M.
Proof.
have E : fieldsplit (fun r => 1%:M *m r) (@lu Q 1) (history 1%:M b1 [:: b1])
           (last b1 [:: b1]) 0 1%:M = Done (1%:M, - 1%:M).
  rewrite /fieldsplit /apply; case: (C67_operator 1%:M b1 [:: b1]) => -> _ /=.
  rewrite !mulmx1 !mul1mx sub0r subr0 lu_minus_one /=.
  by rewrite ?mul1mx ?mulmx1 ?sub0r ?opprK.
split; first exact: E.
apply: (C67_fieldsplit_exact (mulmx1 _) (@lu_exact Q 1) E).
Qed.

Example C67_elementwise_case :
  let M : 'M[Q]_2 := 2%:M in
  let local (c : 'I_2) (i j : 'I_2) : Q := 2^-1 in
  M *m elementwise id local = 1%:M.
Proof.
move=> M local; case: (@C67_elementwise_inverse Q 2 _ id M local) => //.
  by move=> i j H; rewrite mxE (negbTE H).
move=> i j /= ->; rewrite (big_pred1 j) // mxE eqxx mulfV //.
Qed.

(** When the velocity block is not the matrix that was inverted, the block
    solve does not solve the system, even with exact solves of all blocks. *)
Theorem C67_other_block_refuted :
  exists (A minv : 'M[Q]_1) (b : blocks Q 1 1) f g x y,
    A \in unitmx /\ minv \in unitmx /\
    fieldsplit (fun r => invmx A *m r) (@lu Q 1) (initialize minv b) b f g = Done (x, y) /\
    system A b *m col_mx x y != col_mx f g.
Proof.
exists 2%:M, 1%:M, b1, 0, 1%:M, (2^-1)%:M, (- 1%:M).
split; first by rewrite unitmxE det_scalar1.
split; first exact: unitmx1.
split.
  rewrite /fieldsplit /apply; case: (C67_operator 1%:M b1 [::]) => -> _ /=.
  rewrite invmx_scalar !mulmx1 !mul1mx mulmx0 sub0r subr0 lu_minus_one /=.
  by rewrite ?mul1mx ?mulmx1 ?sub0r ?opprK ?mulmx1.
rewrite /system mul_block_col; apply/eqP => /eq_col_mx [_] /matrixP /(_ ord0 ord0).
by rewrite !mul1mx mul0mx addr0 !mxE => /eqP.
Qed.

Print Assumptions C67_fieldsplit_exact.
Print Assumptions C67_elementwise_inverse.
