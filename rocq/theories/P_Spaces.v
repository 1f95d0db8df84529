(** C74: the function spaces the solvers build, what is reported about their continuity,
    the copies between 2D and 3D fields, and the limiters. *)
From Coq Require Import List String Bool Arith Lia.
Import ListNotations.
From Verif Require Import Spaces_Model.
Open Scope string_scope.
Open Scope list_scope.

(* ------------------------------------------------------------------ *)
(** * Specification *)

(** what a family conforms to: the whole value, its normal component, or nothing is
    continuous between neighbouring cells *)
Inductive conf := Whole | Normal | Nothing.
Inductive conforms : string -> conf -> Prop :=
  | c_dl : conforms "Discontinuous Lagrange" Nothing | c_dq : conforms "DQ" Nothing
  | c_l : conforms "Lagrange" Whole | c_q : conforms "Q" Whole
  | c_rt : conforms "Raviart-Thomas" Normal | c_rtcf : conforms "RTCF" Normal
  | c_bdm : conforms "Brezzi-Douglas-Marini" Normal | c_bdmcf : conforms "BDMCF" Normal.
(** what the functions of an element conform to across the side facets and across the
    horizontal facets.  An HDiv element built from a horizontal H(div) factor holds horizontal
    vectors and keeps the continuity of its factors; one built from a scalar factor holds
    vertical vectors, whose only component is continuous in the vertical. *)
Inductive really : elem -> conf -> conf -> Prop :=
  | r_fin b k : conforms (b_family b) k -> really (Fin b) k k
  | r_tpe h v k j : conforms (b_family h) k -> conforms (b_family v) j -> really (TPE (Fin h) (Fin v)) k j
  | r_hdiv e k j : really e k j -> really (HDivE e) k j
  | r_vec e n k j : really e k j -> really (VecE e n) k j
  | r_ten e k j : really e k j -> really (TenE e) k j.
Definition word (k : conf) : string := match k with Whole => "cg" | Normal => "hdiv" | Nothing => "dg" end.
(** facet terms are needed unless the whole value is continuous *)
Definition jumps (k : conf) : bool := match k with Whole => false | _ => true end.
Definition treated_as_jumping (s : string) : bool := mem s ["dg"; "hdiv"].

Definition is_hdiv_elem (e : elem) : bool := match e with HDivE _ => true | _ => false end.

(** P1DG: every factor discontinuous of degree one *)
Inductive p1dg_base : elem -> Prop :=
  | p1_fin f c v : In f ["Discontinuous Lagrange"; "DQ"] -> p1dg_base (Fin (mkBase f c 1 v)).
Inductive p1dg : elem -> Prop :=
  | p1_2d e : p1dg_base e -> p1dg e
  | p1_3d h v : p1dg_base h -> p1dg_base v -> p1dg (TPE h v)
  | p1_vec e n : (match e with VecE _ _ => False | _ => True end) -> p1dg e -> p1dg (VecE e n).
(** an element as create_function_spaces makes them: factors are finite elements *)
Inductive plain : elem -> Prop :=
  | pl_fin b : plain (Fin b)
  | pl_tpe h v : plain (TPE (Fin h) (Fin v))
  | pl_vec e n : plain e -> (match e with VecE _ _ => False | _ => True end) -> plain (VecE e n)
  | pl_hdiv e : plain e -> (match e with TPE _ _ => True | _ => False end) -> plain (HDivE e).

Definition flat (c : cell) : Prop := c = Triangle \/ c = Quad.

(* ------------------------------------------------------------------ *)
(** * Two dimensions *)

Ltac cells H := destruct H; subst.
Lemma add1 p : p + 1 = S p. Proof. lia. Qed.
Ltac run := rewrite ?add1; vm_compute.

(** which 2D spaces are created: all of them on planar meshes, for every polynomial degree,
    cell and element family; on the sphere just for the H(div) families *)
Theorem C74_spaces_2d : forall c gdim f p t, flat c -> gdim = 2 \/ gdim = 3 ->
  (gdim = 3 /\ is_hdiv f = false /\ spaces2d c gdim f p t = inr ESphere) \/
  ((gdim = 3 -> is_hdiv f = true) /\
   exists l u h q, spaces2d c gdim f p t = inl l /\
     find "U_2d" l = Some u /\ find "H_2d" l = Some h /\ find "Q_2d" l = Some q /\
     find "V_2d" l = Some (MixE [u; h]) /\
     (* degrees *)
     degree u = (if is_hdiv f then S p else p) /\
     degree h = (match f with DgCg => S p | _ => p end) /\ degree q = 1 /\
     (* continuity *)
     really u (if is_hdiv f then Normal else Nothing) (if is_hdiv f then Normal else Nothing) /\
     really h (match f with DgCg => Whole | _ => Nothing end) (match f with DgCg => Whole | _ => Nothing end) /\
     really q (match t with TCg => Whole | TDg => Nothing end) (match t with TCg => Whole | TDg => Nothing end) /\
     (* vector valued: by its family or by its components *)
     (is_hdiv f = false -> exists e, u = VecE e gdim)).
Proof.
  intros c gdim f p t Hc Hg.
  destruct Hg as [Hg|Hg], f; subst gdim;
    try (left; cells Hc; repeat split; reflexivity);
    right; (split; [intros X; first [reflexivity | discriminate X]|]);
    cells Hc; destruct t; unfold spaces2d, is_hdiv, h_family; rewrite ?add1;
    do 4 eexists; (split; [vm_compute; reflexivity|]);
    (split; [reflexivity|]); (split; [reflexivity|]); (split; [reflexivity|]); (split; [reflexivity|]);
    (split; [reflexivity|]); (split; [reflexivity|]); (split; [reflexivity|]);
    (split; [repeat constructor|]); (split; [repeat constructor|]); (split; [repeat constructor|]);
    intros X; first [discriminate X | eexists; reflexivity].
Qed.

(** the shallow water forms are integrated with a rule that is exact for products of two
    functions of either component, i.e. mass matrices are exact *)
Theorem C74_mass_exact_2d : forall c f p t l v u h, flat c -> spaces2d c 2 f p t = inl l ->
  find "V_2d" l = Some v -> find "U_2d" l = Some u -> find "H_2d" l = Some h ->
  degree u + degree u <= quad_2d v /\ degree h + degree h <= quad_2d v /\
  degree u + degree h <= quad_2d v /\ degree v = Nat.max (degree u) (degree h).
Proof.
  intros c f p t l v u h Hc H Hv Hu Hh.
  destruct (C74_spaces_2d c 2 f p t Hc (or_introl eq_refl)) as [[? _]|[_ (l' & u' & h' & q & E & Eu & Eh & Eq & Ev & _)]];
    [discriminate|].
  rewrite E in H. injection H as H. subst l'.
  rewrite Eu in Hu. rewrite Eh in Hh. rewrite Ev in Hv.
  injection Hu as Hu. injection Hh as Hh. injection Hv as Hv. subst u' h' v.
  unfold quad_2d. cbn [degree map fold_right]. rewrite Nat.max_0_r. lia.
Qed.

(** the space of the non-hydrostatic pressure exists unless its degree is zero *)
Theorem C74_q_space : forall c p q, flat c ->
  ((exists e, q_space c p q = Some e /\ degree e = match q with Some q => q | None => p end /\ really e Whole Whole)
   <-> (match q with Some q => q | None => p end) <> 0).
Proof.
  intros c p q Hc. unfold q_space. set (d := match q with Some q => q | None => p end).
  split.
  - intros (e & H & _) E. rewrite E in H. cells Hc; discriminate H.
  - intros H. destruct d as [|d]; [congruence|].
    cells Hc; eexists; (split; [vm_compute; reflexivity|]); (split; [reflexivity|repeat constructor]).
Qed.
(** Refuted: with the defaults of the non-hydrostatic options every polynomial degree works *)
Theorem C74_q_space_refuted : q_space Triangle 0 None = None /\
  exists l, spaces2d Triangle 2 DgDg 0 TDg = inl l.
Proof. split; [reflexivity|]. eexists. vm_compute. reflexivity. Qed.

(* ------------------------------------------------------------------ *)
(** * Three dimensions *)

(** the 3D solver has spaces for exactly the families with discontinuous elevation *)
Theorem C74_spaces_3d : forall c f p qp, flat c ->
  (f = DgCg /\ spaces3d c f p qp = inr EFamily) \/
  (f <> DgCg /\ exists l u w h u2 h2, spaces3d c f p qp = inl l /\
     find "U" l = Some u /\ find "W" l = Some w /\ find "H" l = Some h /\
     find "U_2d" l = Some u2 /\ find "H_2d" l = Some h2 /\ find "V_2d" l = Some (MixE [u2; h2]) /\
     (* degrees in the horizontal and in the vertical *)
     (degree u, degree_v u) = ((if is_hdiv f then S p else p), p) /\
     (degree w, degree_v w) = (p, if is_hdiv f then S p else p) /\
     (degree h, degree_v h) = (p, p) /\ degree u2 = degree u /\ degree h2 = degree h /\
     (* continuity: horizontal velocity across sides, vertical velocity across layers *)
     really u (if is_hdiv f then Normal else Nothing) Nothing /\
     really w Nothing (if is_hdiv f then Whole else Nothing) /\
     really h Nothing Nothing).
Proof.
  intros c f p qp Hc.
  destruct f; try (left; split; reflexivity); right; (split; [discriminate|]);
    cells Hc; destruct qp; unfold spaces3d, is_hdiv, h_family; rewrite ?add1;
    do 6 eexists; (split; [vm_compute; reflexivity|]);
    do 6 (split; [reflexivity|]); do 5 (split; [reflexivity|]);
    (split; [repeat constructor|]); (split; [repeat constructor|]); repeat constructor.
Qed.

(** every element of the 3D solver: its continuity is reported correctly unless it is an HDiv
    element, and the decision whether facet terms are needed errs only on the side of
    including terms that vanish *)
Definition continuity_ok (e : elem) : Prop :=
  (match e with MixE _ => True | _ =>
     exists k j a b, really e k j /\ element_continuity e = Some (a, b) /\
       (is_hdiv_elem e = false -> a = word k /\ b = word j) /\
       (jumps k = true -> treated_as_jumping a = true) /\
       (jumps j = true -> treated_as_jumping b = true) /\
       (is_hdiv_elem e = false -> treated_as_jumping a = jumps k /\ treated_as_jumping b = jumps j)
   end).
Ltac one := cbn [snd continuity_ok]; try exact I; do 4 eexists;
  (split; [repeat constructor|]); (split; [reflexivity|]);
  (split; [intros X; (discriminate X || (split; reflexivity))|]);
  (split; [intros; (reflexivity || discriminate)|]);
  (split; [intros; (reflexivity || discriminate)|]);
  intros X; (discriminate X || (split; reflexivity)).
Theorem C74_continuity_3d : forall c f p qp l, flat c -> spaces3d c f p qp = inl l ->
  Forall (fun x => continuity_ok (snd x)) l.
Proof.
  intros c f p qp l Hc. destruct f; [| | |discriminate]; cells Hc; destruct qp;
    unfold spaces3d, is_hdiv, h_family; rewrite ?add1; intros H; vm_compute in H;
    injection H as H; subst l; repeat (constructor; [one|]); constructor.
Qed.
Theorem C74_continuity_2d : forall c gdim f p t l, flat c -> spaces2d c gdim f p t = inl l ->
  Forall (fun x => continuity_ok (snd x)) l.
Proof.
  intros c gdim f p t l Hc. unfold spaces2d.
  destruct (Nat.eqb gdim 3 && negb (is_hdiv f)); [discriminate|].
  destruct f; cells Hc; destruct t;
    unfold is_hdiv, h_family; rewrite ?add1; intros H; vm_compute in H;
    injection H as H; subst l; repeat (constructor; [one|]); constructor.
Qed.
(** Refuted: the reported continuity of every element is right.  The velocity of the H(div)
    families is discontinuous in the vertical and reported as 'hdiv'; the vertical velocity
    is discontinuous in the horizontal and reported as 'hdiv' there. *)
Theorem C74_continuity_refuted : exists l u w,
  spaces3d Triangle RtDg 1 false = inl l /\ find "U" l = Some u /\ find "W" l = Some w /\
  really u Normal Nothing /\ element_continuity u = Some ("hdiv", "hdiv") /\
  really w Nothing Whole /\ element_continuity w = Some ("hdiv", "hdiv").
Proof.
  do 3 eexists. split; [vm_compute; reflexivity|]. do 2 (split; [reflexivity|]).
  split; [repeat constructor|]. split; [reflexivity|]. split; [repeat constructor|reflexivity].
Qed.

(* ------------------------------------------------------------------ *)
(** * Fields *)

Lemma make_fields_ok fs l : (forall n s, In (n, s) fs -> exists e, find s l = Some e) ->
  exists m, make_fields fs l = inl m /\ map fst m = map fst fs /\
    (forall n s, In (n, s) fs -> exists e, find s l = Some e /\ In (n, e) m).
Proof.
  induction fs as [|[n s] r IH]; intros H.
  - exists []. split; [reflexivity|]. split; [reflexivity|]. intros n s [].
  - destruct (H n s (or_introl eq_refl)) as [e E].
    destruct IH as (m & Em & Hm & K). { intros a b Hab. apply (H a b). right. exact Hab. }
    exists ((n, e) :: m). cbn [make_fields]. rewrite E, Em. split; [reflexivity|].
    split; [cbn; rewrite Hm; reflexivity|].
    intros a b [X|X].
    + injection X as X1 X2. subst a b. exists e. split; [exact E|left; reflexivity].
    + destruct (K a b X) as (e' & ? & ?). exists e'. split; [assumption|right; assumption].
Qed.
Lemma make_fields_missing fs l n s : In (n, s) fs -> find s l = None ->
  exists s', make_fields fs l = inr (EMissing s') /\ find s' l = None.
Proof.
  induction fs as [|[a b] r IH]; intros H E; [destruct H|].
  cbn [make_fields]. destruct (find b l) eqn:F.
  - destruct H as [X|X].
    + injection X as X1 X2. subst. congruence.
    + destruct (IH X E) as (s' & -> & Hs). exists s'. split; [reflexivity|exact Hs].
  - exists b. split; [reflexivity|exact F].
Qed.

Definition always_there : list string :=
  ["P0"; "P1"; "P1v"; "P1DG"; "P1DGv"; "U"; "W"; "U_2d"; "Uint"; "H"; "turb_space"; "P1_2d"; "P1v_2d";
   "P1DG_2d"; "P1DGv_2d"; "H_2d"; "V_2d"; "H_bhead"; "H_bhead_2d"; "U_int_pg"].
Definition is_some {A} (x : option A) : bool := match x with Some _ => true | None => false end.
Lemma always c f p qp l : flat c -> spaces3d c f p qp = inl l ->
  (forall n, In n always_there -> exists e, find n l = Some e) /\
  (find "P2DGxP2" l = None <-> qp = false).
Proof.
  intros Hc H.
  assert (K : forallb (fun n => is_some (find n l)) always_there = true /\ is_some (find "P2DGxP2" l) = qp).
  { revert H. destruct f; [| | |discriminate]; cells Hc; destruct qp;
      unfold spaces3d, is_hdiv, h_family; rewrite ?add1; intros H; vm_compute in H;
      injection H as H; subst l; (split; vm_compute; reflexivity). }
  destruct K as [K1 K2]. split.
  - intros n Hn. rewrite forallb_forall in K1. specialize (K1 n Hn). cbv beta in K1.
    destruct (find n l) as [e|]; [exists e; reflexivity|discriminate].
  - destruct (find "P2DGxP2" l); cbn in K2; subst qp; split; intros; (reflexivity || discriminate).
Qed.
Lemma field_space_check o :
  forallb (fun x => mem (snd x) always_there ||
    (String.eqb (snd x) "P2DGxP2" && o_baroc o && o_quad_density o)) (field_spaces o) = true.
Proof.
  destruct o as [c f p ale salt temp ba qp qd sm tu gl lt lu cd].
  unfold field_spaces. cbn [o_salt o_temp o_baroc o_quad_density o_smag o_turb o_gls].
  destruct salt, temp, ba, qd, sm, tu, gl; vm_compute; reflexivity.
Qed.
Lemma field_space_names o n s : In (n, s) (field_spaces o) ->
  In s always_there \/ (s = "P2DGxP2" /\ o_baroc o = true /\ o_quad_density o = true).
Proof.
  intros H. pose proof (field_space_check o) as K. rewrite forallb_forall in K.
  specialize (K _ H). cbv beta in K. cbn [snd] in K. apply orb_prop in K. destruct K as [K|K].
  - left. unfold mem in K. apply existsb_exists in K. destruct K as (x & Hx & E).
    apply String.eqb_eq in E. subst x. exact Hx.
  - right. apply andb_prop in K. destruct K as [K1 K2]. apply andb_prop in K1. destruct K1 as [K0 K1].
    apply String.eqb_eq in K0. repeat split; assumption.
Qed.
Lemma density_listed o : o_baroc o = true -> o_quad_density o = true ->
  In ("density_3d", "P2DGxP2") (field_spaces o).
Proof.
  intros Hb Hq. unfold field_spaces. rewrite Hb, Hq. rewrite !in_app_iff. unfold on. cbn [In].
  do 3 right. left. left. reflexivity.
Qed.

(** every field of the 3D solver has its space, unless the density is asked to be quadratic
    and the pressure is not *)
Theorem C74_fields_3d : forall o l, flat (o_cell o) ->
  spaces3d (o_cell o) (o_fam o) (o_degree o) (o_quad_pressure o) = inl l ->
  (o_baroc o = true /\ o_quad_density o = true /\ o_quad_pressure o = false /\
   make_fields (field_spaces o) l = inr (EMissing "P2DGxP2")) \/
  (~ (o_baroc o = true /\ o_quad_density o = true /\ o_quad_pressure o = false) /\
   exists m, make_fields (field_spaces o) l = inl m /\ map fst m = map fst (field_spaces o) /\
     (forall n s, In (n, s) (field_spaces o) -> exists e, find s l = Some e /\ In (n, e) m)).
Proof.
  intros o l Hc H. destruct (always _ _ _ _ _ Hc H) as [A B].
  destruct (o_baroc o) eqn:Hb; destruct (o_quad_density o) eqn:Hq; destruct (o_quad_pressure o) eqn:Hp.
  all: try (right; split; [intros (X & Y & Z); discriminate|];
    apply make_fields_ok; intros n s Hns;
    destruct (field_space_names o n s Hns) as [X|(X & Y & Z)];
    [apply A; exact X| subst s; (congruence || (destruct (find "P2DGxP2" l) eqn:F; [eexists; reflexivity|destruct B as [B _]; discriminate (B eq_refl)]))]).
  left. do 3 (split; [reflexivity|]).
  assert (N : find "P2DGxP2" l = None) by (apply B; reflexivity).
  destruct (make_fields_missing _ l _ _ (density_listed o Hb Hq) N) as (s' & E & F).
  rewrite E. f_equal. f_equal.
  (* the missing space is the one of the density: every other one exists *)
  clear - E F A.
  assert (G : In s' (map snd (field_spaces o))).
  { revert E. generalize (field_spaces o). intros fs. induction fs as [|[n s] r IH]; [discriminate|].
    cbn [make_fields map In snd]. destruct (find s l).
    - destruct (make_fields r l); [discriminate|]. intros X. injection X as X. subst. right. apply IH. reflexivity.
    - intros X. injection X as X. left. exact X. }
  apply in_map_iff in G. destruct G as ([n s] & G1 & G2). cbn in G1. subst s.
  destruct (field_space_names o n s' G2) as [X|(X & _)]; [|exact X].
  destruct (A s' X) as [e X']. congruence.
Qed.

(** cases that meet the hypotheses *)
Example ex_fields : exists l m, spaces3d Quad RtDg 2 true = inl l /\
  make_fields (field_spaces (mkOpts Quad RtDg 2 true true false true true true false true true false true false)) l = inl m /\
  List.length m = 25.
Proof. do 2 eexists. split; [vm_compute; reflexivity|]. split; [vm_compute; reflexivity|reflexivity]. Qed.

Print Assumptions C74_fields_3d.
Print Assumptions C74_continuity_3d.
