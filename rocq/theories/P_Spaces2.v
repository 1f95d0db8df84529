(** C74, continued: limiters, copies between 2D and 3D fields, extended functions. *)
From Coq Require Import List String Bool Arith Lia.
Import ListNotations.
From Verif Require Import Spaces_Model P_Spaces.
Open Scope string_scope.
Open Scope list_scope.

(* ------------------------------------------------------------------ *)
(** * Limiters *)

Lemma mem_in x l : mem x l = true <-> In x l.
Proof.
  unfold mem. rewrite existsb_exists. split.
  - intros (y & Hy & E). apply String.eqb_eq in E. subst y. exact Hy.
  - intros H. exists x. split; [exact H|apply String.eqb_refl].
Qed.
Lemma accepts_fin b : limiter_accepts (Fin b) = true <-> p1dg_base (Fin b).
Proof.
  destruct b as [f c d v]. unfold limiter_accepts. cbn [family degree b_family b_degree].
  rewrite andb_true_iff, mem_in, Nat.eqb_eq. split.
  - intros [H ->]. constructor. exact H.
  - intros H. inversion H; subst. split; [assumption|reflexivity].
Qed.
(** the limiter is made for P1DG spaces, scalar or vector, in 2D and 3D, and for no other
    space of finite elements and their products *)
Theorem C74_limiter_accepts : forall e, plain e -> (limiter_accepts e = true <-> p1dg e).
Proof.
  assert (A : forall b, limiter_accepts (Fin b) = true <-> p1dg (Fin b)).
  { intros b. rewrite accepts_fin. split; [apply p1_2d|]. intros H. inversion H; assumption. }
  assert (B : forall h v, limiter_accepts (TPE (Fin h) (Fin v)) = true <-> p1dg (TPE (Fin h) (Fin v))).
  { intros h v. cbn [limiter_accepts]. rewrite andb_true_iff.
    pose proof (accepts_fin h) as Hh. pose proof (accepts_fin v) as Hv.
    unfold limiter_accepts in Hh, Hv. rewrite Hh, Hv. split.
    - intros [? ?]. apply p1_3d; assumption.
    - intros H. inversion H; subst; [|split; assumption].
      match goal with K : p1dg_base (TPE _ _) |- _ => inversion K end. }
  assert (C : forall e, plain e -> (match e with HDivE _ => True | _ => False end) ->
              (limiter_accepts e = true <-> p1dg e)).
  { intros e He Hh. destruct e as [| |e'| | | |]; try destruct Hh. inversion He; subst.
    destruct e'; try contradiction. split; [discriminate|]. intros X. inversion X; subst.
    match goal with K : p1dg_base (HDivE _) |- _ => inversion K end. }
  intros e He. destruct He as [b|h v|e n He Hn|e He Ht].
  - apply A.
  - apply B.
  - assert (E : limiter_accepts (VecE e n) = limiter_accepts e) by (destruct e; try reflexivity; contradiction).
    rewrite E. clear E.
    assert (D : limiter_accepts e = true <-> p1dg e).
    { destruct He; [apply A|apply B|contradiction|]. apply C; [|exact I]. constructor; assumption. }
    rewrite D. split.
    + intros X. apply p1_vec; assumption.
    + intros X. inversion X; subst; [|assumption].
      match goal with K : p1dg_base (VecE _ _) |- _ => inversion K end.
  - apply C; [constructor; assumption|exact I].
Qed.

(** the velocity space of dg-dg and the tracer space are P1DG exactly at degree one *)
Lemma limiter_spaces c f p qp l : flat c -> spaces3d c f p qp = inl l ->
  exists h u, find "H" l = Some h /\ find "U" l = Some u /\
    limiter_accepts h = Nat.eqb p 1 /\ (f = DgDg -> limiter_accepts u = Nat.eqb p 1).
Proof.
  intros Hc. destruct f; [| | |discriminate]; cells Hc; destruct qp;
    unfold spaces3d, is_hdiv, h_family; rewrite ?add1; intros H; vm_compute in H;
    injection H as H; subst l; do 2 eexists; (split; [reflexivity|]); (split; [reflexivity|]);
    (split; [destruct p as [|[|p]]; vm_compute; reflexivity
            |intros X; first [discriminate X | destruct p as [|[|p]]; vm_compute; reflexivity]]).
Qed.

Definition wants_limiter (o : opts) : bool :=
  o_lim_tracers o || (o_lim_velocity o && match o_fam o with DgDg => true | _ => false end).
(** the construction of the 3D solver's spaces, fields and limiters succeeds exactly for the
    supported combinations of options *)
Theorem C74_create : forall o, flat (o_cell o) ->
  ((exists s, create o = inl s) <->
   o_fam o <> DgCg /\
   ~ (o_baroc o = true /\ o_quad_density o = true /\ o_quad_pressure o = false) /\
   (o_degree o <= 1 \/ wants_limiter o = false)).
Proof.
  intros o Hc. unfold create.
  destruct (C74_spaces_3d (o_cell o) (o_fam o) (o_degree o) (o_quad_pressure o) Hc) as [[Hf E]|[Hf (l & ? & ? & ? & ? & ? & E & _)]].
  - rewrite E. split; [intros [s X]; discriminate|]. intros [X _]. contradiction.
  - rewrite E.
    destruct (C74_fields_3d o l Hc E) as [(B & D & P & M)|(N & m & M & _)].
    + rewrite M. split; [intros [s X]; discriminate|]. intros (_ & X & _). exfalso. apply X. repeat split; assumption.
    + rewrite M. destruct (limiter_spaces _ _ _ _ _ Hc E) as (h & u & Fh & Fu & Ah & Au).
      unfold tracer_limiter, uv_limiter, wants_limiter. rewrite Fh, Fu, Ah.
      destruct (o_degree o) as [|[|p]] eqn:Dg.
      * change (Nat.ltb 0 0) with false. rewrite !andb_false_r. cbn [andb]. split; [|intros _; eexists; reflexivity].
        intros _. split; [exact Hf|]. split; [exact N|]. left. lia.
      * change (Nat.ltb 0 1) with true. rewrite !andb_true_r. cbn [Nat.eqb].
        split; [intros _; split; [exact Hf|]; split; [exact N|]; left; lia|]. intros _.
        destruct (o_lim_tracers o), (o_lim_velocity o), (o_fam o); cbn [andb]; rewrite ?(Au eq_refl); cbn [Nat.eqb]; eexists; reflexivity.
      * change (Nat.ltb 0 (S (S p))) with true. rewrite !andb_true_r. cbn [Nat.eqb].
        destruct (o_lim_tracers o), (o_lim_velocity o), (o_fam o); cbn [andb orb]; try rewrite (Au eq_refl); cbn [Nat.eqb].
        all: split; [intros [s X]; (discriminate X || (split; [exact Hf|]; split; [exact N|]; right; reflexivity))
                    |intros (_ & _ & [X|X]); [lia|(discriminate X || (eexists; reflexivity))]].
Qed.
(** Refuted: every polynomial degree works with the default options (tracer limiter on) *)
Definition default_opts (p : nat) : opts :=
  mkOpts Triangle DgDg p true true true false false false false false false true true false.
Theorem C74_degree_two_refuted : create (default_opts 2) = inr ELimiter /\
  forall p, create (default_opts (S (S p))) = inr ELimiter.
Proof. split; [reflexivity|]. intros p. vm_compute. reflexivity. Qed.

(** the limiters that exist act on the spaces of the fields they are applied to *)
Theorem C74_limiter_targets : forall o s, flat (o_cell o) -> create o = inl s ->
  (forall e, so_tlim s = Some e -> find "H" (so_spaces s) = Some e /\ p1dg e /\
     forall n, In (n, "H") (field_spaces o) -> In (n, e) (so_fields s)) /\
  (forall e, so_ulim s = Some e -> find "U" (so_spaces s) = Some e /\ p1dg e /\ In ("uv_3d", e) (so_fields s)) /\
  (* and they exist exactly when asked for and the element allows it *)
  (so_tlim s <> None <-> o_lim_tracers o = true /\ o_degree o <> 0) /\
  (so_ulim s <> None <-> o_lim_velocity o = true /\ o_degree o <> 0 /\ o_fam o = DgDg).
Proof.
  intros o s Hc. unfold create.
  destruct (C74_spaces_3d (o_cell o) (o_fam o) (o_degree o) (o_quad_pressure o) Hc) as [[Hf E]|[Hf (l & u & w & h & u2 & h2 & E & Eu & Ew & Eh & _ & _ & _ & _ & _ & _ & _ & _ & Ru & Rw & Rh)]];
    rewrite E; [discriminate|].
  destruct (C74_fields_3d o l Hc E) as [(B & D & P & M)|(N & m & M & _ & Hm)]; rewrite M; [discriminate|].
  destruct (limiter_spaces _ _ _ _ _ Hc E) as (h' & u' & Fh & Fu & Ah & Au).
  rewrite Eh in Fh. injection Fh as Fh. subst h'. rewrite Eu in Fu. injection Fu as Fu. subst u'.
  assert (Plain : forall n e, (n = "U" \/ n = "H") -> find n l = Some e -> plain e).
  { clear - Hc E. intros n e Hn. revert E. destruct (o_fam o); [| | |discriminate]; cells Hc; rewrite H;
      destruct (o_quad_pressure o); unfold spaces3d, is_hdiv, h_family; rewrite ?add1; intros E; vm_compute in E;
      injection E as E; subst l; destruct Hn; subst n; intros X; vm_compute in X; injection X as X; subst e; repeat constructor. }
  unfold tracer_limiter, uv_limiter. rewrite Eh, Eu. intros H.
  assert (T : exists t, (if o_lim_tracers o && Nat.ltb 0 (o_degree o)
              then if limiter_accepts h then inl (Some h) else inr ELimiter else inl None) = (inl t : option elem + exn) /\
              so_tlim s = t /\ so_spaces s = l /\ so_fields s = m).
  { destruct (o_lim_tracers o && Nat.ltb 0 (o_degree o)); [destruct (limiter_accepts h)|]; try discriminate;
    (match type of H with context [if ?b then _ else _] => destruct b end; [destruct (limiter_accepts u)|]); try discriminate;
    injection H as H; subst s; eexists; repeat split. }
  assert (U : exists t, (if o_lim_velocity o && Nat.ltb 0 (o_degree o) && match o_fam o with DgDg => true | _ => false end
              then if limiter_accepts u then inl (Some u) else inr ELimiter else inl None) = (inl t : option elem + exn) /\
              so_ulim s = t).
  { destruct (o_lim_tracers o && Nat.ltb 0 (o_degree o)); [destruct (limiter_accepts h)|]; try discriminate;
    (match type of H with context [if ?b then _ else _] => destruct b end; [destruct (limiter_accepts u)|]); try discriminate;
    injection H as H; subst s; eexists; repeat split. }
  clear H. destruct T as (t & T & -> & -> & ->). destruct U as (t' & U & ->).
  assert (Z : Nat.ltb 0 (o_degree o) = true <-> o_degree o <> 0) by (rewrite Nat.ltb_lt; lia).
  split; [|split; [|split]].
  - intros e He. subst t. destruct (o_lim_tracers o && Nat.ltb 0 (o_degree o)); [|discriminate].
    destruct (limiter_accepts h) eqn:A; [|discriminate]. injection T as T. subst e.
    split; [exact Eh|]. split.
    + apply C74_limiter_accepts; [|exact A]. eapply Plain; [right; reflexivity|exact Eh].
    + intros n Hn. destruct (Hm n "H" Hn) as (e & Fe & Ie). rewrite Eh in Fe. injection Fe as Fe. subst e. exact Ie.
  - intros e He. subst t'. destruct (o_lim_velocity o && Nat.ltb 0 (o_degree o) && match o_fam o with DgDg => true | _ => false end); [|discriminate].
    destruct (limiter_accepts u) eqn:A; [|discriminate]. injection U as U. subst e.
    split; [exact Eu|]. split.
    + apply C74_limiter_accepts; [|exact A]. eapply Plain; [left; reflexivity|exact Eu].
    + destruct (Hm "uv_3d" "U") as (e & Fe & Ie).
      { unfold field_spaces. apply in_or_app. left. cbn. tauto. }
      rewrite Eu in Fe. injection Fe as Fe. subst e. exact Ie.
  - rewrite <- Z. destruct (o_lim_tracers o), (Nat.ltb 0 (o_degree o)); cbn [andb] in T;
      try destruct (limiter_accepts h); try discriminate T; injection T as T; subst t;
      (split; [intros X; (split; reflexivity) || (exfalso; apply X; reflexivity)|intros [X Y]; discriminate]).
  - rewrite <- Z. destruct (o_lim_velocity o), (Nat.ltb 0 (o_degree o)), (o_fam o); cbn [andb] in U;
      try destruct (limiter_accepts u); try discriminate U; injection U as U; subst t';
      (split; [intros X; (repeat split; reflexivity) || (exfalso; apply X; reflexivity)|intros (X & Y & W); discriminate]).
Qed.

(** iterate never applies a limiter that does not exist, when the options are those the
    solver was created with *)
Theorem C74_first_step : forall o s, flat (o_cell o) -> create o = inl s ->
  exists l, first_step s (o_lim_tracers o) (o_lim_velocity o) = inl l /\
    (forall e, In e l -> so_tlim s = Some e \/ so_ulim s = Some e) /\
    (forall e, so_ulim s = Some e -> In e l) /\
    (forall e, so_tlim s = Some e -> o_salt o = true \/ o_temp o = true -> In e l).
Proof.
  intros o s Hc H. destruct (C74_limiter_targets o s Hc H) as (_ & _ & T & U).
  assert (So : so_opts s = o).
  { revert H. unfold create. destruct (spaces3d _ _ _ _); [|discriminate].
    repeat match goal with |- context [match ?x with _ => _ end] => destruct x; try discriminate end.
    intros X. injection X as X. subst s. reflexivity. }
  unfold first_step. rewrite So.
  assert (T' : so_tlim s <> None <-> o_lim_tracers o && Nat.ltb 0 (o_degree o) = true).
  { rewrite T, andb_true_iff, Nat.ltb_lt. intuition lia. }
  assert (U' : so_ulim s <> None <-> o_lim_velocity o && Nat.ltb 0 (o_degree o) && match o_fam o with DgDg => true | _ => false end = true).
  { rewrite U, !andb_true_iff, Nat.ltb_lt. destruct (o_fam o); intuition (try lia; congruence). }
  destruct (o_lim_tracers o && Nat.ltb 0 (o_degree o)) eqn:A;
    destruct (o_lim_velocity o && Nat.ltb 0 (o_degree o) && match o_fam o with DgDg => true | _ => false end) eqn:B;
    clear A B T U; unfold apply_limiters; rewrite So;
    destruct (so_tlim s) as [t|]; try (exfalso; (apply (proj2 T' eq_refl); reflexivity) || (discriminate (proj1 T' ltac:(discriminate))));
    destruct (so_ulim s) as [u|]; try (exfalso; (apply (proj2 U' eq_refl); reflexivity) || (discriminate (proj1 U' ltac:(discriminate))));
    destruct (o_salt o), (o_temp o); cbn; eexists; (split; [reflexivity|]);
    (split; [intros e He; cbn in He; intuition (try (left; congruence); try (right; congruence))|]);
    (split; [intros e He; (discriminate He || (injection He as He; subst e; cbn; tauto))
            |intros e He Ho; (discriminate He || (injection He as He; subst e; cbn; intuition (try discriminate)))]).
Qed.
(** Refuted: the same for options switched on after the solver was created, and for a step
    taken without iterate when the degree is zero *)
Theorem C74_late_limiter_refuted :
  (exists s, create (mkOpts Triangle DgDg 1 true true false false false false false false false false false false) = inl s /\
     first_step s true false = inr EApply) /\
  (exists s, create (default_opts 0) = inl s /\
     apply_limiters s true true = inr EApply /\ first_step s true true = inl []).
Proof. split; (eexists; split; [vm_compute; reflexivity|]); [reflexivity|split; reflexivity]. Qed.

(** two dimensions: the limiter is on the tracer space, whose degree is one whatever the
    polynomial degree, so it is the continuity of the tracers that matters *)
Theorem C74_limiter_2d : forall c gdim f p t l used lim, flat c -> spaces2d c gdim f p t = inl l ->
  (t = TDg -> exists x, tracer_limiter_2d used lim p l = inl x /\
     (x <> None <-> used = true /\ lim = true /\ p <> 0) /\
     forall e, x = Some e -> find "Q_2d" l = Some e /\ p1dg e) /\
  (t = TCg -> tracer_limiter_2d used lim p l = if used && lim && Nat.ltb 0 p then inr ELimiter else inl None).
Proof.
  intros c gdim f p t l used lim Hc H.
  assert (Q : exists q, find "Q_2d" l = Some q /\ plain q /\ limiter_accepts q = match t with TDg => true | TCg => false end).
  { revert H. unfold spaces2d. destruct (Nat.eqb gdim 3 && negb (is_hdiv f)); [discriminate|].
    destruct f; cells Hc; destruct t; unfold is_hdiv, h_family; rewrite ?add1; intros H; vm_compute in H;
    injection H as H; subst l; eexists; (split; [reflexivity|]); (split; [constructor|reflexivity]). }
  destruct Q as (q & Q & P & A). unfold tracer_limiter_2d. rewrite Q, A.
  split; intros ->.
  - destruct used, lim, p; cbn [andb Nat.ltb Nat.leb]; eexists; (split; [reflexivity|]);
      (split; [split; [intros X; (repeat split; (reflexivity || discriminate)) || (exfalso; apply X; reflexivity)
                      |intros (X & Y & Z); (discriminate || congruence)]
              |intros e X; first [discriminate X | injection X as X; subst e; split; [reflexivity|apply C74_limiter_accepts; assumption]]]).
  - destruct (used && lim && Nat.ltb 0 p); reflexivity.
Qed.

(* ------------------------------------------------------------------ *)
(** * Copies between 2D and 3D *)

Definition base_of_2d (e : elem) : elem := match e with VecE e _ => e | _ => e end.
Definition horizontal (e : elem) : option elem :=
  match base_element e with Some (TPE h _) => Some h | _ => None end.
Definition same_nodes (a b : elem) : Prop :=
  match a, b with
  | Fin x, Fin y => b_family x = b_family y /\ b_cell x = b_cell y /\ b_degree x = b_degree y
  | _, _ => False
  end.
Definition dgn (c : cell) := match c with Quad => "DQ" | _ => "Discontinuous Lagrange" end.
Definition cgn (c : cell) := match c with Quad => "Q" | _ => "Lagrange" end.
Definition vel_2d (c : cell) (f : fam) (p : nat) : elem :=
  match f, c with
  | RtDg, Quad => Fin (mkBase "RTCF" c (S p) "equispaced") | RtDg, _ => Fin (mkBase "Raviart-Thomas" c (S p) "integral")
  | BdmDg, Quad => Fin (mkBase "BDMCF" c (S p) "equispaced") | BdmDg, _ => Fin (mkBase "Brezzi-Douglas-Marini" c (S p) "integral")
  | _, _ => VecE (Fin (mkBase (dgn c) c p "equispaced")) 2
  end.
Definition vel_3d (c : cell) (f : fam) (p : nat) : elem :=
  let v := Fin (mkBase "Discontinuous Lagrange" Interval p "equispaced") in
  match f with
  | DgDg => VecE (TPE (Fin (mkBase (dgn c) c p "equispaced")) v) 3
  | _ => HDivE (TPE (vel_2d c f p) v)
  end.
Lemma copy_spaces c f p qp l : flat c -> spaces3d c f p qp = inl l ->
  (find "U_2d" l, find "U" l, find "P1DG_2d" l, find "P1DG" l, find "P1_2d" l, find "P1" l) =
  (Some (vel_2d c f p), Some (vel_3d c f p),
   Some (Fin (mkBase (dgn c) c 1 "equispaced")),
   Some (TPE (Fin (mkBase (dgn c) c 1 "equispaced")) (Fin (mkBase "Discontinuous Lagrange" Interval 1 "equispaced"))),
   Some (Fin (mkBase (cgn c) c 1 "equispaced")),
   Some (TPE (Fin (mkBase (cgn c) c 1 "equispaced")) (Fin (mkBase "Lagrange" Interval 1 "equispaced")))).
Proof.
  intros Hc. destruct f; [| | |discriminate]; cells Hc; destruct qp;
    unfold spaces3d, is_hdiv, h_family; rewrite ?add1; intros H; vm_compute in H;
    injection H as H; subst l; vm_compute; reflexivity.
Qed.
(** every copy the 3D solver sets up is accepted, between spaces with the same horizontal
    family, cell and degree, and scaled by the element height exactly for H(div) families *)
Theorem C74_copies : forall o l, flat (o_cell o) ->
  spaces3d (o_cell o) (o_fam o) (o_degree o) (o_quad_pressure o) = inl l ->
  Forall (fun x => match x with (a, b, height) =>
    exists e2 e3 h scaled, a = Some e2 /\ b = Some e3 /\ check_copy e2 e3 height = inl scaled /\
      horizontal e3 = Some h /\ same_nodes (base_of_2d e2) h /\
      (scaled = true <-> exists k, really e2 Normal k) end) (copies o l) /\
  (o_coord_dg o = false ->
   Forall (fun x => match x with (a, b, height) =>
    exists e2 e3, a = Some e2 /\ b = Some e3 /\ horizontal e3 = Some (base_of_2d e2) end) (copies o l)).
Proof.
  intros o l Hc H. assert (Hf : o_fam o <> DgCg) by (intros X; rewrite X in H; discriminate).
  pose proof (copy_spaces _ _ _ _ _ Hc H) as K. clear H.
  unfold copies, coord_space, coord_space_2d.
  injection K as K1 K2 K3 K4 K5 K6. rewrite K1, K2, K3, K4, K5, K6. clear K1 K2 K3 K4 K5 K6.
  destruct (o_fam o); try congruence; destruct Hc as [Hc|Hc]; rewrite Hc; destruct (o_coord_dg o).
  all: (split; [|intros X; first [discriminate X | repeat (constructor; [do 2 eexists; (split; [reflexivity|]); (split; [reflexivity|]); reflexivity|]); constructor]]).
  all: repeat (constructor; [do 4 eexists; (split; [vm_compute; reflexivity|]); (split; [vm_compute; reflexivity|]);
      (split; [vm_compute; reflexivity|]); (split; [vm_compute; reflexivity|]);
      (split; [vm_compute; repeat split; reflexivity|]);
      (split; [intros X; first [discriminate X | eexists; repeat constructor]
              |intros [k X]; try reflexivity; exfalso; repeat match goal with R : really _ _ _ |- _ => inversion R; clear R; subst end;
               match goal with K : conforms _ _ |- _ => cbn in K; inversion K end])|]).
  all: constructor.
Qed.
(** Refuted: the horizontal nodes always agree.  On a 2D mesh with discontinuous coordinates
    the 3D coordinate fields are created without the variant that is set on every other
    space. *)
Theorem C74_coordinate_variant_refuted : exists o l e2 e3 h,
  spaces3d (o_cell o) (o_fam o) (o_degree o) (o_quad_pressure o) = inl l /\
  coord_space_2d o l = Some e2 /\ coord_space o l = Some e3 /\ check_copy e2 e3 false = inl false /\
  horizontal e3 = Some h /\ h <> e2.
Proof.
  exists (mkOpts Triangle DgDg 1 true true true false false false false false false true true true).
  do 4 eexists. split; [vm_compute; reflexivity|]. do 4 (split; [vm_compute; reflexivity|]). discriminate.
Qed.
(** a copy is refused between different families, and for H(div) families without a height *)
Theorem C74_copy_checked : forall e2 e3 height b, check_copy e2 e3 height = inl b ->
  exists h, horizontal e3 = Some h /\ family h = family e2 /\
    (elem_types (family e2) = Some "hdiv" -> b = true /\ height = true) /\
    (b = true -> elem_types (family e2) = Some "hdiv").
Proof.
  intros e2 e3 height b. unfold check_copy, horizontal.
  destruct (base_element e3) as [[|h v| | | | |]|]; try discriminate.
  destruct (String.eqb (family e2) (family h)) eqn:E; [|discriminate].
  apply String.eqb_eq in E. intros H. exists h. split; [reflexivity|]. split; [symmetry; exact E|].
  unfold elem_types.
  destruct (mem (family e2) ["Raviart-Thomas"; "RTCF"; "Brezzi-Douglas-Marini"; "BDMCF"]) eqn:M.
  - destruct height; cbn [andb negb] in H; [|discriminate]. injection H as H. subst b.
    split; [intros _; split; reflexivity|]. intros _.
    apply mem_in in M. cbn in M. destruct M as [M|[M|[M|[M|[]]]]]; rewrite <- M; reflexivity.
  - cbn [andb] in H. injection H as H. subst b. split; [|discriminate].
    destruct (mem (family e2) ["Discontinuous Lagrange"; "DQ"]); [intros X; discriminate X|].
    destruct (mem (family e2) ["Lagrange"; "Q"]); intros X; discriminate X.
Qed.

(* ------------------------------------------------------------------ *)
(** * Quadrature *)

(** the 3D forms are integrated with rules that are exact for products of two functions of
    their space in each direction, with the degrees of the element family *)
Theorem C74_mass_exact_3d : forall c f p qp l u h, flat c -> spaces3d c f p qp = inl l ->
  find "U" l = Some u -> find "H" l = Some h ->
  quad_3d u = (2 * (if is_hdiv f then p + 1 else p) + 1, 2 * p + 1) /\ quad_3d h = (2 * p + 1, 2 * p + 1) /\
  (forall e, In e [u; h] -> degree e + degree e <= fst (quad_3d e) /\ degree_v e + degree_v e <= snd (quad_3d e)).
Proof.
  intros c f p qp l u h Hc H Hu Hh.
  destruct (C74_spaces_3d c f p qp Hc) as [[? E]|[_ (l' & u' & w & h' & u2 & h2 & E & Eu & Ew & Eh & _ & _ & _ & Du & _ & Dh & _)]];
    [rewrite E in H; discriminate|].
  rewrite E in H. injection H as H. subst l'. rewrite Eu in Hu. rewrite Eh in Hh.
  injection Hu as Hu. injection Hh as Hh. subst u' h'.
  injection Du as D1 D2. injection Dh as D3 D4. unfold quad_3d. rewrite D1, D2, D3, D4.
  split; [destruct (is_hdiv f); f_equal; lia|]. split; [reflexivity|].
  intros e [He|[He|[]]]; subst e; cbn [fst snd]; lia.
Qed.

(* ------------------------------------------------------------------ *)
(** * Extended functions *)

(** the horizontal part of the 3D view of a 2D field is the element of the field, for every
    scalar or two-component space made without an explicit variant *)
Theorem C74_extended : forall c fam d s e, flat c -> s = Scalar \/ s = Vector 2 ->
  In fam ["DG"; "CG"; "DQ"; "Q"; "RTF"; "RTCF"; "BDMF"; "BDMCF"] ->
  space_2d c fam d None s = Some e ->
  exists x b, extended c e = Some x /\ horizontal x = Some (Fin b) /\ base_of_2d e = Fin b /\
    (match s with Vector _ => exists y, x = VecE y 2 | _ => x = TPE (Fin b) (Fin (mkBase "Real" Interval 0 "equispaced")) end).
Proof.
  intros c fam d s e Hc Hs Hf. cbn in Hf.
  repeat (destruct Hf as [Hf|Hf]; [subst fam|]); [..|destruct Hf];
    cells Hc; destruct Hs; subst s; destruct d as [|d]; intros H; vm_compute in H;
    try discriminate H; injection H as H; subst e; do 2 eexists;
    (split; [vm_compute; reflexivity|]); (split; [vm_compute; reflexivity|]);
    (split; [vm_compute; reflexivity|]); (reflexivity || (eexists; reflexivity)).
Qed.
(** Refuted: for every 2D function.  An explicit variant is replaced by the default one, a
    vector with three components gets two, and a tensor becomes a scalar; the data is shared
    all the same. *)
Theorem C74_extended_refuted :
  (exists e x b, space_2d Triangle "DG" 1 (Some "spectral") Scalar = Some e /\ extended Triangle e = Some x /\
     horizontal x = Some b /\ b <> e) /\
  (exists e x, space_2d Triangle "CG" 1 None (Vector 3) = Some e /\ extended Triangle e = Some (VecE x 2)) /\
  (exists e h v, space_2d Triangle "CG" 1 None Tensor = Some e /\ extended Triangle e = Some (TPE h v)).
Proof.
  split; [|split].
  - do 3 eexists. do 3 (split; [vm_compute; reflexivity|]). discriminate.
  - do 2 eexists. split; vm_compute; reflexivity.
  - do 3 eexists. split; vm_compute; reflexivity.
Qed.
(** Refuted: the continuity of every element the solver makes can be asked for: that of the
    3D view of a field is a KeyError *)
Theorem C74_view_continuity_refuted : exists e x, space_2d Triangle "DG" 1 None Scalar = Some e /\
  extended Triangle e = Some x /\ element_continuity x = None.
Proof. do 2 eexists. split; [vm_compute; reflexivity|]. split; vm_compute; reflexivity. Qed.

(* ------------------------------------------------------------------ *)
(** * Cases that meet the hypotheses *)
Example ex_2d : exists l, spaces2d Quad 2 BdmDg 1 TDg = inl l /\
  find "U_2d" l = Some (Fin (mkBase "BDMCF" Quad 2 "equispaced")) /\
  find "H_2d" l = Some (Fin (mkBase "DQ" Quad 1 "equispaced")).
Proof. eexists. split; [vm_compute; reflexivity|]. split; reflexivity. Qed.
Example ex_create : exists s, create (default_opts 1) = inl s /\ so_tlim s <> None /\ so_ulim s <> None /\
  exists l, first_step s true true = inl l /\ List.length l = 2.
Proof.
  eexists. split; [vm_compute; reflexivity|]. split; [discriminate|]. split; [discriminate|].
  eexists. split; reflexivity.
Qed.
Example ex_rt_degree_two : exists s,
  create (mkOpts Quad RtDg 2 true true false true true true false true true false true false) = inl s.
Proof. eexists. vm_compute. reflexivity. Qed.

Print Assumptions C74_create.
Print Assumptions C74_copies.
Print Assumptions C74_first_step.
