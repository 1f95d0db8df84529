(** C54: the records kept during an optimisation and the attribution of controls. *)
From Coq Require Import Reals List Bool String Arith Lia Lra.
From Verif Require Import Inversion_Model.
Import ListNotations.
Open Scope nat_scope.

Section R.
Context {M G Row : Type}.
Variables (fJ fReg fMis : M -> R) (fG : M -> G) (fS : M -> Row).
Let optimise := optimise M G Row fJ fReg fMis fG fS.

(* ------------------------------------------------------------------ *)
(** * Specification: which evaluation a record belongs to *)

(** The control of the latest evaluation at every callback of a history. *)
Fixpoint at_callbacks (cur : M) (ops : list (op M)) : list M :=
  match ops with
  | [] => []
  | OEval _ m :: r => at_callbacks m r
  | OGrad _ :: r => at_callbacks cur r
  | OCall _ :: r => cur :: at_callbacks cur r
  end.
Fixpoint latest (cur : M) (ops : list (op M)) : M :=
  match ops with
  | [] => cur
  | OEval _ m :: r => latest m r
  | _ :: r => latest cur r
  end.
(** The control of the latest derivative at every callback. *)
Fixpoint grads_at (cur g : M) (ops : list (op M)) : list M :=
  match ops with
  | [] => []
  | OEval _ m :: r => grads_at m g r
  | OGrad _ :: r => grads_at cur cur r
  | OCall _ :: r => g :: grads_at cur g r
  end.
Fixpoint callbacks (ops : list (op M)) : nat :=
  match ops with [] => 0 | OCall _ :: r => S (callbacks r) | _ :: r => callbacks r end.

(** The functional was evaluated between any two callbacks ([pend]: since the last one). *)
Fixpoint evaluated (pend : bool) (ops : list (op M)) : Prop :=
  match ops with
  | [] => True
  | OEval _ _ :: r => evaluated true r
  | OGrad _ :: r => evaluated pend r
  | OCall _ :: r => pend = true /\ evaluated false r
  end.
Fixpoint pending (pend : bool) (ops : list (op M)) : bool :=
  match ops with
  | [] => pend
  | OEval _ _ :: r => pending true r
  | OGrad _ :: r => pending pend r
  | OCall _ :: r => pending false r
  end.

(* ------------------------------------------------------------------ *)
Record inv (ex : bool) (cur g : M) (ms gs : list M) (x : imst M G Row) : Prop := {
  i_tape : c_tape _ _ _ x = cur; i_J : c_J _ _ _ x = fJ cur; i_reg : c_Jreg _ _ _ x = fReg cur; i_mis : c_Jmis _ _ _ x = fMis cur;
  i_dJ : c_dJ _ _ _ x = Some (fG g);
  i_m : c_m _ _ _ x = Some g;
  i_pJ : p_J _ _ _ x = map fJ ms; i_preg : p_reg _ _ _ x = map fReg ms; i_pmis : p_mis _ _ _ x = map fMis ms;
  i_pdJ : p_dJ _ _ _ x = map fG gs; i_i : c_i _ _ _ x = List.length ms; i_len : List.length gs = List.length ms;
  i_last : s_last _ _ _ x <> None }.

Lemma run_inv : forall ex ops cur g ms gs x, inv ex cur g ms gs x ->
  exists y g', opt_run M G Row fJ fReg fMis fG fS ex ops x = IOk y /\
    inv ex (latest cur ops) g' (ms ++ at_callbacks cur ops) (gs ++ grads_at cur g ops) y.
Proof.
  intros ex ops. induction ops as [|o ops IH]; intros cur g ms gs x H.
  - exists x, g. split; [reflexivity|]. cbn. rewrite !app_nil_r. exact H.
  - destruct o as [m| |]; cbn [opt_run opt_step ibind].
    + destruct (IH m g ms gs (do_eval M G Row fJ fReg fMis fS m x)) as (y & g' & Hy & Hi).
      { destruct H. constructor; cbn; try reflexivity; try assumption. intro; discriminate. }
      exists y, g'. split; [exact Hy|exact Hi].
    + destruct (IH cur cur ms gs (do_grad M G Row fG x)) as (y & g' & Hy & Hi).
      { destruct H. constructor; cbn; try assumption; rewrite i_tape0; reflexivity. }
      exists y, g'. split; [exact Hy|exact Hi].
    + unfold update_progress. rewrite (i_dJ _ _ _ _ _ _ H). cbn [ibind].
      set (z := mk_im _ _ _ _ _ _ _ _ _ _ _ _ _ _ _ _ _ _).
      assert (Hz : inv ex cur g (ms ++ [cur]) (gs ++ [g]) z).
      { destruct H. constructor; unfold z; cbn; rewrite ?map_app, ?app_length; cbn; try assumption; try congruence; try lia. }
      assert (HD : exists y, (if ex then dump M G Row z else IOk z) = IOk y /\ inv ex cur g (ms ++ [cur]) (gs ++ [g]) y).
      { destruct ex; [|exists z; split; [reflexivity|exact Hz]].
        unfold dump. destruct (s_last M G Row z) as [k|] eqn:El; [|destruct Hz; contradiction].
        eexists. split; [reflexivity|]. destruct Hz. constructor; cbn; try assumption; discriminate. }
      destruct HD as (w & HW & Hw). rewrite HW. cbn [ibind].
      destruct (IH cur g (ms ++ [cur]) (gs ++ [g]) w Hw) as (y & g' & Hy & Hi).
      exists y, g'. split; [exact Hy|]. cbn [latest at_callbacks grads_at]. rewrite <- !app_assoc in Hi. exact Hi.
Qed.

Lemma start_inv : forall ex m0,
  exists x, start M G Row fJ fReg fMis fG fS ex m0 (fresh M G Row m0) = IOk x /\ inv ex m0 m0 [m0] [m0] x /\
    s_rows _ _ _ x = (if ex then [fS m0; fS m0] else [fS m0]) /\
    s_last _ _ _ x = Some (if ex then 1 else 0).
Proof.
  intros ex m0. unfold start, fresh. cbn. destruct ex; cbn.
  - eexists. split; [reflexivity|]. split; [|split; reflexivity]. constructor; cbn; try reflexivity. discriminate.
  - eexists. split; [reflexivity|]. split; [|split; reflexivity]. constructor; cbn; try reflexivity. discriminate.
Qed.

(** For every history of the optimisation routine the records have one entry per
    iteration (the initial state and every callback), which belongs to the latest
    evaluation, respectively the latest derivative, before it. *)
Theorem C54_records : forall ex m0 ops, exists x, optimise ex m0 ops = IOk x /\
  p_J _ _ _ x = map fJ (m0 :: at_callbacks m0 ops) /\
  p_reg _ _ _ x = map fReg (m0 :: at_callbacks m0 ops) /\
  p_mis _ _ _ x = map fMis (m0 :: at_callbacks m0 ops) /\
  p_dJ _ _ _ x = map fG (m0 :: grads_at m0 m0 ops) /\
  c_i _ _ _ x = S (callbacks ops) /\
  List.length (p_J _ _ _ x) = c_i _ _ _ x /\ List.length (p_dJ _ _ _ x) = c_i _ _ _ x.
Proof.
  intros ex m0 ops. unfold optimise, Inversion_Model.optimise.
  destruct (start_inv ex m0) as (x & -> & H & _). cbn [ibind].
  destruct (run_inv ex ops m0 m0 [m0] [m0] x H) as (y & g' & Hy & Hi). exists y. split; [exact Hy|].
  assert (N : forall c, List.length (at_callbacks c ops) = callbacks ops).
  { clear. induction ops as [|[m| |] ops IH]; intro c; cbn; try (rewrite ?IH; reflexivity); apply IH. }
  destruct Hi. cbn [app] in *. repeat split; try assumption.
  - rewrite i_i0. cbn. rewrite N. reflexivity.
  - rewrite i_pJ0, i_i0, map_length. reflexivity.
  - rewrite i_pdJ0, i_i0, map_length. exact i_len0.
Qed.

(** When the derivative is asked for at every evaluated control before the callback,
    all records of an iteration belong to the same control. *)
Fixpoint paired (fresh_grad : bool) (ops : list (op M)) : Prop :=
  match ops with
  | [] => True
  | OEval _ _ :: r => paired false r
  | OGrad _ :: r => paired true r
  | OCall _ :: r => fresh_grad = true /\ paired fresh_grad r
  end.
Theorem C54_records_consistent : forall m0 ops, paired true ops -> grads_at m0 m0 ops = at_callbacks m0 ops.
Proof.
  assert (H : forall ops cur g b, (b = true -> g = cur) -> paired b ops -> grads_at cur g ops = at_callbacks cur ops).
  { induction ops as [|[m| |] ops IH]; intros cur g b E P; cbn in *.
    - reflexivity.
    - apply (IH m g false); [discriminate|exact P].
    - apply (IH cur cur true); [reflexivity|exact P].
    - destruct P as (-> & P). rewrite (E eq_refl). f_equal. apply (IH cur cur true); [reflexivity|exact P]. }
  intros m0 ops P. apply (H ops m0 m0 true); [reflexivity|exact P].
Qed.

(* ------------------------------------------------------------------ *)
(** * The station series *)

Definition inv2 (pend : bool) (cur : M) (ms : list M) (x : imst M G Row) : Prop :=
  c_tape _ _ _ x = cur /\ c_i _ _ _ x = List.length ms /\ c_dJ _ _ _ x <> None /\ 0 < List.length ms /\
  s_rows _ _ _ x = map fS ms ++ (if pend then [fS cur] else []) /\
  s_last _ _ _ x = Some (if pend then List.length ms else List.length ms - 1).

Lemma run_rows : forall ex ops pend cur ms x, inv2 pend cur ms x -> evaluated pend ops ->
  exists y, opt_run M G Row fJ fReg fMis fG fS ex ops x = IOk y /\
    inv2 (pending pend ops) (latest cur ops) (ms ++ at_callbacks cur ops) y.
Proof.
  intros ex ops. induction ops as [|o ops IH]; intros pend cur ms x H E.
  - exists x. split; [reflexivity|]. cbn. rewrite app_nil_r. exact H.
  - destruct H as (T & I & D & N & RW & L). destruct o as [m| |]; cbn [opt_run opt_step ibind].
    + destruct (IH true m ms (do_eval M G Row fJ fReg fMis fS m x)) as (y & Hy & Hi); [|exact E|exists y; split; [exact Hy|exact Hi]].
      unfold do_eval, collect, inv2. cbn. rewrite L. destruct pend.
      * rewrite I, Nat.eqb_refl. split; [reflexivity|]. split; [reflexivity|]. split; [exact D|]. split; [exact N|].
        split; [|reflexivity]. rewrite RW, removelast_last. reflexivity.
      * rewrite I. destruct (Nat.eqb_spec (List.length ms) (List.length ms - 1)) as [Q|Q]; [lia|].
        split; [reflexivity|]. split; [reflexivity|]. split; [exact D|]. split; [exact N|].
        split; [|reflexivity]. rewrite RW, app_nil_r. reflexivity.
    + destruct (IH pend cur ms (do_grad M G Row fG x)) as (y & Hy & Hi); [|exact E|exists y; split; [exact Hy|exact Hi]].
      unfold inv2. cbn. repeat split; try assumption. discriminate.
    + cbn [evaluated] in E. destruct E as (-> & E). unfold update_progress.
      destruct (c_dJ M G Row x) as [dj|] eqn:ED; [|contradiction]. cbn [ibind].
      set (z := mk_im _ _ _ _ _ _ _ _ _ _ _ _ _ _ _ _ _ _).
      assert (HZ : inv2 false cur (ms ++ [cur]) z).
      { unfold inv2, z. cbn. rewrite app_length. cbn. split; [exact T|]. split; [lia|]. split; [intro F; discriminate|].
        split; [lia|]. split; [rewrite RW, map_app, app_nil_r; reflexivity|]. rewrite L. f_equal. lia. }
      assert (HD : exists y, (if ex then dump M G Row z else IOk z) = IOk y /\ inv2 false cur (ms ++ [cur]) y).
      { destruct ex; [|exists z; split; [reflexivity|exact HZ]].
        destruct HZ as (Z1 & Z2 & Z3 & Z4 & Z5 & Z6). unfold dump. rewrite Z6. eexists. split; [reflexivity|].
        unfold inv2. cbn. repeat split; try assumption. }
      destruct HD as (w & HW & Hw). rewrite HW. cbn [ibind].
      destruct (IH false cur (ms ++ [cur]) w Hw E) as (y & Hy & Hi). exists y. split; [exact Hy|].
      cbn [pending latest at_callbacks]. rewrite <- app_assoc in Hi. exact Hi.
Qed.

(** The stored series have one row per iteration, that of the latest evaluation,
    plus a row for evaluations since the last callback. *)
Theorem C54_series : forall ex m0 ops, evaluated ex ops ->
  exists x, optimise ex m0 ops = IOk x /\
  s_rows _ _ _ x = map fS (m0 :: at_callbacks m0 ops)
                   ++ (if pending ex ops then [fS (latest m0 ops)] else []).
Proof.
  intros ex m0 ops E. unfold optimise, Inversion_Model.optimise.
  destruct (start_inv ex m0) as (x & -> & H & HR & HL). cbn [ibind].
  destruct (run_rows ex ops ex m0 [m0] x) as (y & Hy & Hi).
  - destruct H. unfold inv2. rewrite HR, HL, i_tape0, i_i0, i_dJ0. split; [reflexivity|]. split; [reflexivity|].
    split; [discriminate|]. split; [cbn; lia|]. destruct ex; split; reflexivity.
  - exact E.
  - exists y. split; [exact Hy|]. destruct Hi as (_ & _ & _ & _ & Hi & _). exact Hi.
Qed.

(** The file written at a callback has exactly one row per iteration. *)
Lemma opt_run_app : forall ex a b x, opt_run M G Row fJ fReg fMis fG fS ex (a ++ b) x
  = ibind (opt_run M G Row fJ fReg fMis fG fS ex a x) (opt_run M G Row fJ fReg fMis fG fS ex b).
Proof.
  intros ex a. induction a as [|o a IH]; intros b x; [reflexivity|]. cbn [app opt_run].
  destruct (opt_step M G Row fJ fReg fMis fG fS ex o x); [apply IH|reflexivity].
Qed.
Theorem C54_progress_file : forall m0 ops, evaluated true (ops ++ [OCall M]) ->
  exists x, optimise true m0 (ops ++ [OCall M]) = IOk x /\
  c_file _ _ _ x = Some (map fS (m0 :: at_callbacks m0 (ops ++ [OCall M]))) /\
  c_i _ _ _ x = List.length (m0 :: at_callbacks m0 (ops ++ [OCall M])).
Proof.
  intros m0 ops E. destruct (C54_series true m0 (ops ++ [OCall M]) E) as (x & HX & HR).
  exists x. split; [exact HX|].
  assert (P : forall b l, pending b (l ++ [OCall M]) = false).
  { intros b l. revert b. induction l as [|[m| |] l IH]; intro b; cbn; try reflexivity; apply IH. }
  rewrite P, app_nil_r in HR. 
  destruct (C54_records true m0 (ops ++ [OCall M])) as (x' & HX' & RJ & _ & _ & _ & _ & RL & _).
  assert (x' = x) by congruence. subst x'. split.
  - rewrite <- HR. unfold optimise, Inversion_Model.optimise in HX.
    destruct (start M G Row fJ fReg fMis fG fS true m0 (fresh M G Row m0)) as [s|]; [|discriminate]. cbn [ibind] in HX.
    rewrite opt_run_app in HX. destruct (opt_run M G Row fJ fReg fMis fG fS true ops s) as [y|]; [|discriminate].
    cbn [ibind opt_run opt_step] in HX. destruct (update_progress M G Row y) as [z|]; [|discriminate]. cbn [ibind] in HX.
    unfold dump in HX. destruct (s_last M G Row z); [|discriminate]. cbn [ibind] in HX.
    injection HX as <-. reflexivity.
  - rewrite <- RL, RJ, map_length. reflexivity.
Qed.

(** Before the first callback the file has two equal rows for one iteration. *)
Theorem C54_initial_row_refuted : forall m0, exists x, optimise true m0 [] = IOk x /\
  c_i _ _ _ x = 1 /\ c_file _ _ _ x = Some [fS m0; fS m0].
Proof. intro m0. eexists. split; [reflexivity|]. split; reflexivity. Qed.

(** A callback without an evaluation since the last one adds a cost entry but no row. *)
Theorem C54_series_refuted : forall m0 m1,
  match optimise true m0 [OEval M m1; OGrad M; OCall M; OCall M] with
  | IOk x => List.length (p_J _ _ _ x) = 3 /\ List.length (s_rows _ _ _ x) = 2
  | IErr _ => False
  end.
Proof. intros m0 m1. vm_compute. split; reflexivity. Qed.
End R.

(* ------------------------------------------------------------------ *)
(** * Tagged blocks *)

(** Every manager reads back its own values, in time order, when the observed
    variables have different names. *)
Lemma tag_inj : forall a b, tag a = tag b -> a = b.
Proof.
  unfold tag. induction a as [|c a IH]; intros [|d b] H.
  - reflexivity.
  - exfalso. apply (f_equal String.length) in H. cbn in H.
    assert (L : forall s, String.length (String.append s " observation") = String.length s + 12)
      by (clear; induction s; cbn; [reflexivity|rewrite IHs; reflexivity]). rewrite L in H. lia.
  - exfalso. apply (f_equal String.length) in H. cbn in H.
    assert (L : forall s, String.length (String.append s " observation") = String.length s + 12)
      by (clear; induction s; cbn; [reflexivity|rewrite IHs; reflexivity]). rewrite L in H. lia.
  - cbn in H. injection H as -> H. f_equal. apply IH, H.
Qed.

Theorem C54_series_of_variable : forall V (vals : list (string * (R -> V))) ts v f,
  NoDup (map fst vals) -> In (v, f) vals -> blocks (tape_of vals ts) v = map f ts.
Proof.
  intros V vals ts v f Hn Hin. unfold blocks, tape_of. induction ts as [|t ts IH]; [reflexivity|].
  cbn [flat_map map]. rewrite filter_app, map_app, IH. clear IH.
  assert (E : map snd (filter (fun b : string * V => String.eqb (fst b) (tag v)) (map (fun m => (tag (fst m), snd m t)) vals)) = [f t]).
  { induction vals as [|[u g] vals IH]; [contradiction|]. cbn [map fst snd] in *. inversion Hn as [|? ? Hu Hn']; subst.
    cbn [filter fst]. destruct Hin as [Q|Hin].
    - injection Q as -> ->. rewrite String.eqb_refl. cbn [map snd]. f_equal.
      clear - Hu. induction vals as [|[u g] vals IH]; [reflexivity|]. cbn [map fst snd filter] in *.
      destruct (String.eqb_spec (tag u) (tag v)) as [Q|Q].
      + exfalso. apply Hu. left. apply tag_inj, Q.
      + apply IH. intro H. apply Hu. right; exact H.
    - destruct (String.eqb_spec (tag u) (tag v)) as [Q|Q].
      + exfalso. apply Hu. apply tag_inj in Q. subst u. apply in_map_iff. exists (v, f). split; [reflexivity|exact Hin].
      + apply IH; assumption. }
  rewrite E. reflexivity.
Qed.

(** Two managers of one variable mix their series. *)
Theorem C54_series_of_variable_refuted : forall (f g : R -> R) t, 
  blocks (tape_of [("elev"%string, f); ("elev"%string, g)] [t]) "elev" = [f t; g t].
Proof. reflexivity. Qed.

(* ------------------------------------------------------------------ *)
(** * Controls *)
Section Controls.
Context {C V K : Type}.
Variable (valof : C -> V).

(** What the files of a control manager should show: its own controls, with their masks. *)
Definition own_terms (cm : cman C K) : list (V * option K) :=
  match cm_maps cm with
  | Some ks => map (fun x => (valof (fst x), Some (snd x))) (combine (cm_controls cm) ks)
  | None => map (fun c => (valof c, None)) (cm_controls cm)
  end.
(** One mask per control. *)
Definition masks_match (cm : cman C K) : Prop :=
  match cm_maps cm with
  | Some ks => List.length ks = List.length (cm_controls cm)
  | None => List.length (cm_controls cm) = 1
  end.

Lemma own_export : forall cm, masks_match cm -> export C V K cm (map valof (cm_controls cm)) = IOk (own_terms cm).
Proof.
  intros [cs [ks|] fl] H; unfold export, own_terms, masks_match in *; cbn [cm_controls cm_maps cm_field] in *.
  - f_equal. clear H. revert ks. induction cs as [|c cs IH]; intros [|k ks]; try reflexivity. cbn. f_equal. apply IH.
  - destruct cs as [|c [|c' cs]]; try discriminate. destruct fl; reflexivity.
Qed.

(** Values handed over in the order of the flat control list (controls, and
    likewise gradients) are exported by the managers they belong to. *)
Theorem C54_attribution : forall cms, Forall masks_match cms ->
  export_all C V K cms (map valof (coeff_list C K cms)) 0 = IOk (map own_terms cms).
Proof.
  intros cms H.
  assert (G : forall cms pre, Forall masks_match cms ->
    export_all C V K cms (pre ++ map valof (coeff_list C K cms)) (List.length pre) = IOk (map own_terms cms)).
  { clear. induction cms as [|cm cms IH]; intros pre H; [reflexivity|].
    inversion H as [|? ? Hm Hr]; subst. cbn [export_all map]. unfold coeff_list in *. cbn [flat_map].
    rewrite map_app.
    assert (N : match cm_maps cm with Some ks => List.length ks | None => 1 end = List.length (map valof (cm_controls cm))).
    { rewrite map_length. unfold masks_match in Hm. destruct (cm_maps cm); [exact Hm|symmetry; exact Hm]. }
    rewrite N. rewrite skipn_app, skipn_all, Nat.sub_diag. cbn [skipn app].
    rewrite firstn_app, Nat.sub_diag, firstn_all. cbn [firstn]. rewrite app_nil_r.
    rewrite (own_export cm Hm). cbn [ibind].
    rewrite app_assoc. rewrite <- app_length. rewrite (IH (pre ++ map valof (cm_controls cm)) Hr). reflexivity. }
  apply (G cms []). exact H.
Qed.

(** add_control keeps the managers well formed when masks and controls agree, and
    keeps the order of the controls. *)
Theorem C54_add_control : forall (isf : C -> bool) cs (ks : option (list K)) cms,
  Forall masks_match cms -> (forall l, ks = Some l -> List.length l = List.length cs) ->
  Forall masks_match (add_control C K isf cs ks cms) /\
  coeff_list C K (add_control C K isf cs ks cms) = coeff_list C K cms ++ cs.
Proof.
  intros isf cs ks cms H Hk. unfold add_control, coeff_list. destruct ks as [l|].
  - split.
    + apply Forall_app. split; [exact H|]. constructor; [|constructor]. unfold masks_match. cbn. apply Hk. reflexivity.
    + rewrite flat_map_app. cbn. rewrite app_nil_r. reflexivity.
  - split.
    + apply Forall_app. split; [exact H|]. clear. induction cs; cbn; constructor; [reflexivity|assumption].
    + rewrite flat_map_app. f_equal. clear. induction cs as [|c cs IH]; [reflexivity|]. cbn. f_equal. exact IH.
Qed.
End Controls.

(** Fewer masks than controls are accepted: the next control's file then shows a
    value of the masked group, and the last value is not exported at all. *)
Theorem C54_attribution_refuted :
  let cms := add_control nat nat (fun _ => true) [3] None (add_control nat nat (fun _ => true) [1; 2] (Some [7]) []) in
  coeff_list nat nat cms = [1; 2; 3] /\
  export_all nat nat nat cms [1; 2; 3] 0 = IOk [[(1, Some 7)]; [(2, None)]].
Proof. split; reflexivity. Qed.

Example ex_attribution :
  let cms := add_control nat nat (fun _ => true) [3; 4] None (add_control nat nat (fun _ => true) [1; 2] (Some [7; 8]) []) in
  export_all nat nat nat cms [10; 20; 30; 40] 0 = IOk [[(10, Some 7); (20, Some 8)]; [(30, None)]; [(40, None)]].
Proof. reflexivity. Qed.

Example ex_history : evaluated true [OEval nat 1; OGrad nat; OEval nat 2; OGrad nat; OCall nat; OEval nat 3; OGrad nat; OCall nat]
  /\ at_callbacks 0 [OEval nat 1; OGrad nat; OEval nat 2; OGrad nat; OCall nat; OEval nat 3; OGrad nat; OCall nat] = [2; 3]
  /\ paired true [OEval nat 1; OGrad nat; OEval nat 2; OGrad nat; OCall nat; OEval nat 3; OGrad nat; OCall nat].
Proof. cbn. repeat split; reflexivity. Qed.

Print Assumptions C54_records.
Print Assumptions C54_attribution.
