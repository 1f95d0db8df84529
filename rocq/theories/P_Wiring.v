(** C83: every physical option acts in exactly the terms it is documented for. *)
From Coq Require Import String Ascii List Bool Arith Lia Reals Lra.
From Verif Require Import Exporter_Model Callback_Proofs Equation_Model Options_Table Wiring_Model Wiring_Spec.
Import ListNotations.
Open Scope string_scope.
Open Scope R_scope.

(** the term lists are those of Equation_Model *)
Example swe_list_names : forall b, map swe_name (swe_list b) = map fst (swe_terms b).
Proof. destruct b; reflexivity. Qed.
Example modesplit_list_names : map swe_name modesplit_list = map fst modesplit_terms.
Proof. reflexivity. Qed.
Example mom_list_names : map mom_name mom_list = map fst momentum3d_terms.
Proof. reflexivity. Qed.
Example tr3_list_names : map tr3_name tr3_list = map fst tracer3d_terms.
Proof. reflexivity. Qed.
Example tr2_list_names : forall c, map (tr2_name c) tr2_list = map fst (tracer2d_terms c).
Proof. destruct c; reflexivity. Qed.

Section Wiring.
Context {V : Type}.
Variable vadd : V -> V -> V.
Variable body : string -> list (option V) -> R.
Local Notation coef := (@coef V).
Local Notation swe_term := (swe_term body).
Local Notation contribution := (contribution vadd body).

(* ------------------------------------------------------------------ *)
(** * Lemmas *)

Lemma get_fields_old (d : list (string * option coef)) k :
  NoDup (map fst d) ->
  get (fields_old d) k = match get d k with Some c => lag c | None => None end.
Proof.
  unfold get. induction d as [|[a v] d IH]; cbn [fields_old fold_right map fst snd]; intros N; [reflexivity|].
  inversion N as [|? ? Ha Nd]; subst. specialize (IH Nd).
  assert (Z : dict_get d a = None).
  { destruct (dict_get d a) as [x|] eqn:E; [|reflexivity]. exfalso. apply Ha.
    clear -E. induction d as [|[b y] d IH]; cbn in E; [discriminate E|].
    destruct (String.eqb_spec a b) as [->|]; [now left|right; now apply IH]. }
  cbn [dict_get]. destruct (String.eqb_spec k a) as [->|Hk].
  - rewrite Z in IH.
    destruct v as [c|]; [destruct (lag c) as [c'|] eqn:L|]; cbn [dict_get]; try exact IH.
    rewrite String.eqb_refl. reflexivity.
  - destruct v as [c|]; [destruct (lag c) as [c'|] eqn:L|]; cbn [dict_get]; try exact IH.
    destruct (String.eqb_spec k a); [contradiction|exact IH].
Qed.

Lemma total_ok {T} (f : T -> res) ts a r :
  fold_left (fun a t => rbind a (fun r => rbind (f t) (fun x => Ok (r + x)))) ts a = Ok r ->
  exists b, a = Ok b /\ forall t, In t ts -> exists x, f t = Ok x.
Proof.
  revert a. induction ts as [|t ts IH]; cbn [fold_left]; intros a H.
  - exists r. split; [exact H|intros ? []].
  - destruct (IH _ H) as (b & E & F). destruct a as [b0|e]; cbn [rbind] in E; [|discriminate E].
    destruct (f t) as [x|e] eqn:Ft; cbn [rbind] in E; [|discriminate E].
    exists b0. split; [reflexivity|]. intros u [<-|Hu]; [exists x; exact Ft|exact (F u Hu)].
Qed.

Lemma total_diff {T} (f g : T -> res) ts t a b r r' :
  NoDup ts -> In t ts -> (forall u, u <> t -> f u = g u) ->
  fold_left (fun a t => rbind a (fun r => rbind (f t) (fun x => Ok (r + x)))) ts (Ok a) = Ok r ->
  fold_left (fun a t => rbind a (fun r => rbind (g t) (fun x => Ok (r + x)))) ts (Ok b) = Ok r' ->
  exists x x', f t = Ok x /\ g t = Ok x' /\ r' - r = b - a + (x' - x).
Proof.
  assert (Same : forall ts a b r r', (forall u, In u ts -> f u = g u) ->
    fold_left (fun a t => rbind a (fun r => rbind (f t) (fun x => Ok (r + x)))) ts (Ok a) = Ok r ->
    fold_left (fun a t => rbind a (fun r => rbind (g t) (fun x => Ok (r + x)))) ts (Ok b) = Ok r' -> r' - r = b - a).
  { clear. induction ts as [|u ts IH]; cbn [fold_left rbind]; intros a b r r' E H H'.
    - injection H as <-. injection H' as <-. reflexivity.
    - rewrite <- (E u (or_introl eq_refl)) in H'. destruct (f u) as [x|e]; cbn [rbind] in H, H'.
      + rewrite (IH _ _ _ _ (fun v Hv => E v (or_intror Hv)) H H'). ring.
      + destruct (total_ok f ts _ _ H) as (c & C & Z). discriminate C. }
  revert a b. induction ts as [|u ts IH]; intros a b N Hin E H H'; [destruct Hin|]; cbn [fold_left rbind] in H, H'; inversion N as [|? ? Nu Nd]; subst; destruct Hin as [Hin|Hin]; [subst u|].
  - destruct (f t) as [x|e] eqn:Ft; cbn [rbind] in H; [|destruct (total_ok f ts _ _ H) as (c & C & _); discriminate C].
    destruct (g t) as [x'|e] eqn:Gt; cbn [rbind] in H'; [|destruct (total_ok g ts _ _ H') as (c & C & _); discriminate C].
    exists x, x'. split; [reflexivity|]. split; [reflexivity|].
    rewrite (Same ts _ _ _ _ (fun u Hu => E u (fun Q => Nu (eq_ind u (fun z => In z ts) Hu t Q))) H H'). ring.
  - assert (Hu : u <> t) by (intros ->; contradiction).
    rewrite <- (E u Hu) in H'. destruct (f u) as [x|e]; cbn [rbind] in H, H'.
    + destruct (IH _ _ Nd Hin E H H') as (y & y' & Fy & Gy & D). exists y, y'. split; [exact Fy|]. split; [exact Gy|].
      rewrite D. ring.
    + destruct (total_ok f ts _ _ H) as (c & C & _). discriminate C.
Qed.

Lemma swe_keys (o : attrs (V:=V)) : NoDup (map fst (swe_fields o)).
Proof.
  assert (E : nodup string_dec (map fst (swe_fields o)) = map fst (swe_fields o)) by (vm_compute; reflexivity).
  rewrite <- E. apply NoDup_nodup.
Qed.

(** a term reads a dictionary only through [get] *)
Lemma swe_term_get fl (d d' : list (string * option coef)) t :
  (forall k, get d k = get d' k) -> swe_term fl d t = swe_term fl d' t.
Proof. intros E. destruct t; cbn [Wiring_Model.swe_term]; rewrite ?E; reflexivity. Qed.

(* ------------------------------------------------------------------ *)
(** * 2D runs *)

(** An option does nothing in a term it is not documented for, neither at the
    present nor at the old time level, whatever the other options are. *)
Theorem C83_swe_isolated : forall fl (o o' : attrs) n t,
  agree_but n o o' -> ~ In (n, t) doc2d ->
  swe_term fl (swe_fields o) t = swe_term fl (swe_fields o') t /\
  swe_term fl (fields_old (swe_fields o)) t = swe_term fl (fields_old (swe_fields o')) t.
Proof.
  intros fl o o' n t A H.
  assert (K : forall m, In (m, t) doc2d -> o m = o' m).
  { intros m Hm. apply A. intros ->. exact (H Hm). }
  destruct t; cbn [Wiring_Model.swe_term]; rewrite ?(get_fields_old _ _ (swe_keys _)).
  all: change (get (swe_fields o) "lax_friedrichs_velocity_scaling_factor") with (o "lax_friedrichs_velocity_scaling_factor") in *.
  all: cbn -[if_set lag]; rewrite ?(K _ ltac:(cbn; tauto)); split; try reflexivity.
  all: repeat (rewrite K by (cbn; tauto)); try reflexivity.
Qed.

(** So it changes the right-hand side of the shallow water equations by the change
    of the one term it is documented for. *)
Theorem C83_swe_one_term : forall fl turbines (o o' : attrs) n t r r',
  agree_but n o o' -> In (n, t) doc2d ->
  swe_residual body fl turbines o = Ok r -> swe_residual body fl turbines o' = Ok r' ->
  exists x x', swe_term fl (swe_fields o) t = Ok x /\ swe_term fl (swe_fields o') t = Ok x' /\ r' - r = x' - x.
Proof.
  intros fl turbines o o' n t r r' A H E E'.
  assert (U : forall u, u <> t -> ~ In (n, u) doc2d).
  { intros u Hu Hin. cbn in H, Hin.
    repeat match goal with X : _ \/ _ |- _ => destruct X as [X|X] | X : False |- _ => destruct X end;
      apply Hu; congruence. }
  assert (N : NoDup (swe_list turbines)).
  { destruct turbines; cbn; repeat (apply NoDup_cons; [cbn; intuition discriminate|]); apply NoDup_nil. }
  assert (I : In t (swe_list turbines)).
  { cbn in H. repeat match goal with X : _ \/ _ |- _ => destruct X as [X|X] | X : False |- _ => destruct X end;
      injection H as <- <-; destruct turbines; cbn; tauto. }
  destruct (total_diff (swe_term fl (swe_fields o)) (swe_term fl (swe_fields o')) (swe_list turbines) t 0 0 r r' N I
              (fun u Hu => proj1 (C83_swe_isolated fl o o' n u A (U u Hu))) E E') as (x & x' & F & G & D).
  exists x, x'. split; [exact F|]. split; [exact G|]. rewrite D. ring.
Qed.

(** A set option reaches its term with its value, an unset one switches the term
    off.  At the old time level of the one-step integrators a Function enters with
    its lagged value and a Constant with its value; any other expression is
    missing there. *)
Theorem C83_swe_value : forall fl (o : attrs) n t,
  In (n, t) doc2d -> t <> QuadraticDrag -> t <> HorizontalAdvection ->
  swe_term fl (swe_fields o) t = match o n with Some c => Ok (body (swe_name t) [Some (now c)]) | None => Ok 0 end /\
  swe_term fl (fields_old (swe_fields o)) t
  = match o n with
    | Some (CFun _ v) | Some (CConst v) => Ok (body (swe_name t) [Some v])
    | _ => Ok 0
    end.
Proof.
  intros fl o n t H Q A. cbn in H.
  repeat match goal with X : _ \/ _ |- _ => destruct X as [X|X] | X : False |- _ => destruct X end;
    injection H as <- <-; try contradiction;
    cbn [Wiring_Model.swe_term]; rewrite (get_fields_old _ _ (swe_keys _));
    (split; [reflexivity|]);
    match goal with |- context [get (swe_fields o) ?k] => let z := eval cbn in (get (swe_fields o) k) in change (get (swe_fields o) k) with z end;
    match goal with |- context [o ?n] => destruct (o n) as [[]|] end; reflexivity.
Qed.

(** The three quadratic drag options exclude each other; with one of them the term
    is built from it, with none it is off. *)
Theorem C83_swe_drag : forall fl (o : attrs),
  let m := o "manning_drag_coefficient" in let k := o "nikuradse_bed_roughness" in let c := o "quadratic_drag_coefficient" in
  swe_term fl (swe_fields o) QuadraticDrag
  = match m, k, c with
    | None, None, None => Ok 0
    | Some m, None, None => Ok (body "QuadraticDragTerm" [Some (now m); None; None])
    | None, Some k, None => Ok (body "QuadraticDragTerm" [None; Some (now k); None])
    | None, None, Some c => Ok (body "QuadraticDragTerm" [None; None; Some (now c)])
    | Some _, Some _, None => Fail "Cannot set both Nikuradse drag and Manning drag parameter"
    | None, Some _, Some _ => Fail "Cannot set both dimensionless and Nikuradse drag parameter"
    | Some _, _, Some _ => Fail "Cannot set both dimensionless and Manning drag parameter"
    end.
Proof.
  intros fl o m k c. subst m k c. cbn -[String.append].
  destruct (o "manning_drag_coefficient"), (o "nikuradse_bed_roughness"), (o "quadratic_drag_coefficient"); reflexivity.
Qed.
Theorem C83_swe_advection : forall fl (o : attrs) c,
  o "lax_friedrichs_velocity_scaling_factor" = Some (CConst c) ->
  swe_term fl (swe_fields o) HorizontalAdvection
  = (if use_nonlinear_equations fl
     then Ok (body "HorizontalAdvectionTerm" [if u_discontinuous fl && use_lax_friedrichs_velocity fl then Some c else None])
     else Ok 0) /\
  swe_term fl (fields_old (swe_fields o)) HorizontalAdvection = swe_term fl (swe_fields o) HorizontalAdvection.
Proof.
  intros fl o c E. cbn [Wiring_Model.swe_term]. rewrite (get_fields_old _ _ (swe_keys _)).
  change (get (swe_fields o) "lax_friedrichs_velocity_scaling_factor") with (o "lax_friedrichs_velocity_scaling_factor").
  rewrite E. cbn [lag]. split; [|reflexivity].
  destruct (use_nonlinear_equations fl), (u_discontinuous fl && use_lax_friedrichs_velocity fl)%bool; reflexivity.
Qed.

(** Nothing ever provides the coefficients of the term for the bottom drag of the
    3D model, so it is 0 in every run. *)
Theorem C83_bottom_drag_3d_unused : forall fl (o : attrs),
  swe_term fl (swe_fields o) BottomDrag3D = Ok 0 /\ swe_term fl (fields_old (swe_fields o)) BottomDrag3D = Ok 0 /\
  ~ In BottomDrag3D modesplit_list.
Proof.
  intros fl o. cbn [Wiring_Model.swe_term]. rewrite !(get_fields_old _ _ (swe_keys _)).
  split; [reflexivity|]. split; [reflexivity|]. cbn. intuition discriminate.
Qed.

(** Without any physical option only pressure gradient, advection, boundary drag
    and the divergence of the flux are left. *)
Theorem C83_swe_plain : forall fl (o : attrs) c,
  (forall n, n <> "lax_friedrichs_velocity_scaling_factor" -> o n = None) ->
  o "lax_friedrichs_velocity_scaling_factor" = Some (CConst c) ->
  swe_residual body fl false o
  = Ok (body "ExternalPressureGradientTerm" []
        + (if use_nonlinear_equations fl
           then body "HorizontalAdvectionTerm" [if u_discontinuous fl && use_lax_friedrichs_velocity fl then Some c else None] else 0)
        + body "BoundaryDragTerm" [] + body "HUDivTerm" []).
Proof.
  intros fl o c N E. unfold swe_residual, total, swe_list.
  destruct (C83_swe_advection fl o c E) as [A _].
  assert (Z : forall n t, In (n, t) doc2d -> t <> QuadraticDrag -> t <> HorizontalAdvection -> swe_term fl (swe_fields o) t = Ok 0).
  { intros n t H Q Ha. destruct (C83_swe_value fl o n t H Q Ha) as [-> _].
    rewrite N; [reflexivity|]. intros ->. cbn in H.
    repeat match goal with X : _ \/ _ |- _ => destruct X as [X|X] | X : False |- _ => destruct X end; congruence. }
  assert (D : swe_term fl (swe_fields o) QuadraticDrag = Ok 0).
  { rewrite (C83_swe_drag fl o). rewrite !N by discriminate. reflexivity. }
  cbn [fold_left app rbind].
  rewrite A, D, (proj1 (C83_bottom_drag_3d_unused fl o)).
  rewrite (Z "horizontal_viscosity" HorizontalViscosity), (Z "coriolis_frequency" Coriolis), (Z "wind_stress" WindStress),
    (Z "atmospheric_pressure" AtmosphericPressure), (Z "linear_drag_coefficient" LinearDrag), (Z "momentum_source_2d" MomentumSource),
    (Z "volume_source_2d" ContinuitySource); try discriminate; try (cbn; tauto).
  cbn [Wiring_Model.swe_term swe_name rbind].
  destruct (use_nonlinear_equations fl); cbn [rbind]; f_equal; ring.
Qed.

(* ------------------------------------------------------------------ *)
(** * 2D tracers *)

Lemma append_inj (p a b : string) : (p ++ a = p ++ b)%string -> a = b.
Proof. induction p as [|c p IH]; cbn; intros H; [exact H|]. injection H as H. exact (IH H). Qed.
Lemma diff_src (a b : string) : ("diffusivity_h-" ++ a)%string <> ("source-" ++ b)%string.
Proof. cbn. discriminate. Qed.

Definition base_keys := ["elev_2d"; "uv_2d"; "lax_friedrichs_tracer_scaling_factor"; "tracer_advective_velocity_factor"].

Lemma tracer_fold (dif src : string -> option coef) labels : forall d,
  let d' := fold_left (fun d l => dict_set (dict_set d ("diffusivity_h-" ++ l)%string (dif l)) ("source-" ++ l)%string (src l)) labels d in
  (forall k, In k base_keys -> dict_get d' k = dict_get d k) /\
  (forall l, dict_get d' ("diffusivity_h-" ++ l)%string = if in_dec string_dec l labels then Some (dif l) else dict_get d ("diffusivity_h-" ++ l)%string) /\
  (forall l, dict_get d' ("source-" ++ l)%string = if in_dec string_dec l labels then Some (src l) else dict_get d ("source-" ++ l)%string).
Proof.
  induction labels as [|a labels IH]; intros d; cbv zeta.
  - cbn [fold_left]. split; [reflexivity|]. split; intros l; destruct (in_dec string_dec l []) as [[]|]; reflexivity.
  - cbn [fold_left].
    destruct (IH (dict_set (dict_set d ("diffusivity_h-" ++ a)%string (dif a)) ("source-" ++ a)%string (src a))) as (B & D & S0).
    split; [|split].
    + intros k Hk. rewrite (B k Hk), !dict_get_set.
      destruct (String.eqb_spec k ("source-" ++ a)%string) as [->|]; [exfalso; cbn in Hk; intuition discriminate|].
      destruct (String.eqb_spec k ("diffusivity_h-" ++ a)%string) as [->|]; [exfalso; cbn in Hk; intuition discriminate|]. reflexivity.
    + intros l. rewrite D, !dict_get_set.
      destruct (String.eqb_spec ("diffusivity_h-" ++ l)%string ("source-" ++ a)%string) as [E|_]; [exfalso; exact (diff_src _ _ E)|].
      destruct (in_dec string_dec l labels) as [Hl|Hl], (in_dec string_dec l (a :: labels)) as [Hl'|Hl']; try reflexivity.
      * exfalso. apply Hl'. now right.
      * destruct Hl' as [->|Hl']; [|contradiction]. now rewrite String.eqb_refl.
      * destruct (String.eqb_spec ("diffusivity_h-" ++ l)%string ("diffusivity_h-" ++ a)%string) as [E|_]; [|reflexivity].
        exfalso. apply Hl'. left. symmetry. exact (append_inj _ _ _ E).
    + intros l. rewrite S0, !dict_get_set.
      destruct (in_dec string_dec l labels) as [Hl|Hl], (in_dec string_dec l (a :: labels)) as [Hl'|Hl']; try reflexivity.
      * exfalso. apply Hl'. now right.
      * destruct Hl' as [->|Hl']; [|contradiction]. now rewrite String.eqb_refl.
      * destruct (String.eqb_spec ("source-" ++ l)%string ("source-" ++ a)%string) as [E|_].
        { exfalso. apply Hl'. left. symmetry. exact (append_inj _ _ _ E). }
        destruct (String.eqb_spec ("source-" ++ l)%string ("diffusivity_h-" ++ a)%string) as [E|_]; [|reflexivity].
        exfalso. exact (diff_src a l (eq_sym E)).
Qed.

(** In a system of any number of tracers with any labels, every tracer is diffused
    and forced with its own coefficients: the dictionary holds them under its
    label, and the velocity, the elevation and the factors are not overwritten. *)
Theorem C83_tracer_entries : forall (o f : attrs) (dif src : string -> option coef) labels l,
  In l labels ->
  let d := tracer_fields o f dif src labels in
  get d ("diffusivity_h-" ++ l)%string = dif l /\ get d ("source-" ++ l)%string = src l /\
  get d "uv_2d" = f "uv_2d" /\ get d "elev_2d" = f "elev_2d" /\
  get d "lax_friedrichs_tracer_scaling_factor" = o "lax_friedrichs_tracer_scaling_factor" /\
  get d "tracer_advective_velocity_factor" = o "tracer_advective_velocity_factor".
Proof.
  intros o f dif src labels l Hl d. unfold d, tracer_fields, get.
  match goal with |- context [fold_left _ labels ?b] => destruct (tracer_fold dif src labels b) as (B & D & S0) end.
  split; [rewrite D; destruct (in_dec string_dec l labels); [reflexivity|contradiction]|].
  split; [rewrite S0; destruct (in_dec string_dec l labels); [reflexivity|contradiction]|].
  rewrite !B by (cbn; tauto). repeat split; reflexivity.
Qed.

(** So the diffusivity and the source of one tracer act on that tracer only, and
    only in its diffusion and source term. *)
Theorem C83_tracer_isolated : forall (o f : attrs) (dif dif' src src' : string -> option coef) labels l c lf b t,
  In l labels ->
  (t = TrDiffusion -> dif l = dif' l) -> (t = TrSource -> src l = src' l) ->
  tr2_term body c lf b l (tracer_fields o f dif src labels) t
  = tr2_term body c lf b l (tracer_fields o f dif' src' labels) t.
Proof.
  intros o f dif dif' src src' labels l c lf b t Hl Hd Hs. unfold tracer_fields.
  match goal with |- context [fold_left _ labels ?e] =>
    destruct (tracer_fold dif src labels e) as (B & D & S0); destruct (tracer_fold dif' src' labels e) as (B' & D' & S0') end.
  specialize (D l). specialize (D' l). specialize (S0 l). specialize (S0' l).
  destruct (in_dec string_dec l labels) as [_|N]; [|contradiction].
  destruct t; cbn [tr2_term]; unfold get; rewrite ?D, ?D', ?S0, ?S0', ?Hd, ?Hs by reflexivity;
    rewrite !B, !B' by (cbn; tauto); reflexivity.
Qed.

(** What the terms of a tracer see with an integrator that takes the dictionary as
    it is: advection with the velocity, elevation and factors, diffusion and source
    with its coefficients. *)
Theorem C83_tracer_value : forall (o f : attrs) (dif src : string -> option coef) labels l c u e k g,
  In l labels -> f "uv_2d" = Some u -> f "elev_2d" = Some e ->
  o "tracer_advective_velocity_factor" = Some k -> o "lax_friedrichs_tracer_scaling_factor" = Some g ->
  let d := tracer_fields o f dif src labels in
  (forall lf b, tr2_term body c lf b l d TrAdvection
     = Ok (body (tr2_name c TrAdvection) [Some (now u); Some (now e); Some (now k); if lf then Some (now g) else None])) /\
  (forall lf b, tr2_term body c lf b l d TrDiffusion
     = match dif l with
       | None => Ok 0
       | Some m => Ok (body (tr2_name c TrDiffusion) (Some (now m) :: (if b : bool then [Some (now e); Some (now k); Some (now u)] else [])))
       end) /\
  (forall lf b, tr2_term body c lf b l d TrSource
     = match src l with
       | None => Ok 0
       | Some s => Ok (body (tr2_name c TrSource) (Some (now s) :: (if c then [Some (now e)] else [])))
       end).
Proof.
  intros o f dif src labels l c u e k g Hl U E K G d.
  assert (DE : dict_get d "elev_2d" = Some (Some e)).
  { unfold d, tracer_fields. match goal with |- context [fold_left _ labels ?b] => destruct (tracer_fold dif src labels b) as (B & _ & _) end.
    rewrite B by (cbn; tauto). cbn. now rewrite E. }
  destruct (C83_tracer_entries o f dif src labels l Hl) as (D & S0 & GU & GE & GL & GK). fold d in D, S0, GU, GE, GL, GK.
  rewrite U in GU. rewrite K in GK. rewrite G in GL.
  split; [|split]; intros lf b; cbn [tr2_term]; rewrite ?GU, ?GK, ?GL, ?D, ?S0, ?DE; cbn [option_map].
  - destruct lf; reflexivity.
  - destruct (dif l), b; reflexivity.
  - destruct (src l), c; reflexivity.
Qed.

(** The factor on the velocity must be a Function or a Constant for the integrators
    that keep a copy of the old coefficients: an expression leaves the old level
    without the factor and the set-up fails.  (Refuted: any scalar expression that
    the option accepts can be used.) *)
Theorem C83_tracer_factor_expression_refuted : forall (o f : attrs) (dif src : string -> option coef) l c lf b u0 u1 e0 e1 v,
  f "uv_2d" = Some (CFun u0 u1) -> f "elev_2d" = Some (CFun e0 e1) ->
  o "tracer_advective_velocity_factor" = Some (CExpr v) ->
  tr2_term body c lf b l (fields_old (tracer_fields o f dif src [l])) TrAdvection = Fail "TypeError".
Proof.
  intros o f dif src l c lf b u0 u1 e0 e1 v U E K.
  unfold tracer_fields. cbn [fold_left dict_set String.eqb Ascii.eqb Bool.eqb String.append].
  rewrite U, E, K. cbn [fields_old fold_right snd fst lag].
  cbn [tr2_term]. unfold get. cbn [dict_get String.eqb Ascii.eqb Bool.eqb].
  destruct (o "lax_friedrichs_tracer_scaling_factor") as [[]|], (dif l) as [[]|], (src l) as [[]|];
    cbn [lag dict_get String.eqb Ascii.eqb Bool.eqb]; reflexivity.
Qed.

(** Suspended sediment: with the velocity correction on, the sediment equation is
    set up with every integrator; the advection term sees the correction factor. *)
Theorem C83_sediment_factor : forall (o f : attrs) one dif c lf b u0 u1 e0 e1 k0 k1 g,
  f "uv_2d" = Some (CFun u0 u1) -> f "elev_2d" = Some (CFun e0 e1) ->
  o "lax_friedrichs_tracer_scaling_factor" = Some (CConst g) ->
  let d := sediment_fields o f one true (CFun k0 k1) dif in
  tr2_term body c lf b "sediment_2d" d TrAdvection
  = Ok (body (tr2_name c TrAdvection) [Some u0; Some e0; Some k0; if lf then Some g else None]) /\
  tr2_term body c lf b "sediment_2d" (fields_old d) TrAdvection
  = Ok (body (tr2_name c TrAdvection) [Some u1; Some e1; Some k1; if lf then Some g else None]) /\
  tr2_term body c lf b "sediment_2d" d TrDiffusion
  = match dif with
    | None => Ok 0
    | Some m => Ok (body (tr2_name c TrDiffusion) (Some (now m) :: (if b : bool then [Some e0; Some k0; Some u0] else [])))
    end.
Proof.
  intros o f one dif c lf b u0 u1 e0 e1 k0 k1 g U E G d.
  unfold d, sediment_fields, velocity_factor. rewrite U, E, G.
  cbn [fields_old fold_right snd fst lag tr2_term]. unfold get.
  cbn [dict_get String.eqb Ascii.eqb Bool.eqb String.append].
  split; [destruct lf; reflexivity|].
  split; [destruct dif as [[]|], lf; reflexivity|].
  destruct dif, b; reflexivity.
Qed.
(** (Refuted: the velocity correction can be switched off.)  The factor is then the
    Python number 1, which the integrators with a copy of the old coefficients leave
    out of that copy: setting up the sediment equation with Crank-Nicolson, the
    default, or forward Euler fails. *)
Theorem C83_sediment_factor_refuted : forall (o f : attrs) one factor dif c lf b u0 u1 e0 e1 g,
  f "uv_2d" = Some (CFun u0 u1) -> f "elev_2d" = Some (CFun e0 e1) ->
  o "lax_friedrichs_tracer_scaling_factor" = Some (CConst g) ->
  let d := sediment_fields o f one false factor dif in
  tr2_term body c lf b "sediment_2d" d TrAdvection
  = Ok (body (tr2_name c TrAdvection) [Some u0; Some e0; Some one; if lf then Some g else None]) /\
  tr2_term body c lf b "sediment_2d" (fields_old d) TrAdvection = Fail "TypeError".
Proof.
  intros o f one factor dif c lf b u0 u1 e0 e1 g U E G d.
  unfold d, sediment_fields, velocity_factor. rewrite U, E, G.
  cbn [fields_old fold_right snd fst lag tr2_term]. unfold get.
  cbn [dict_get String.eqb Ascii.eqb Bool.eqb String.append].
  split; [destruct lf; reflexivity|].
  destruct dif as [[]|]; reflexivity.
Qed.

(** ** Boundary conditions of tracers *)
Lemma length_append (a b : string) : String.length (a ++ b)%string = (String.length a + String.length b)%nat.
Proof. induction a as [|x a IH]; cbn; [reflexivity|now rewrite IH]. Qed.
Lemma substring_prefix (a b : string) : substring 0 (String.length a) (a ++ b)%string = a.
Proof. induction a as [|x a IH]; cbn; [destruct b; reflexivity|now rewrite IH]. Qed.

(** Those of a single tracer are the ones given under its label, or under its label
    without the ending. *)
Theorem C83_tracer_bcs : forall {B} (none : B) bnds name,
  tracer_bcs none bnds (name ++ "_2d")%string
  = match dict_get bnds (name ++ "_2d")%string with
    | Some b => b
    | None => match dict_get bnds name with Some b => b | None => none end
    end.
Proof.
  intros B none bnds name. unfold tracer_bcs, drop_last3.
  rewrite length_append. cbn [String.length]. replace (String.length name + 3 - 3)%nat with (String.length name) by lia.
  now rewrite substring_prefix.
Qed.
(** (Refuted: the tracers of a mixed system get theirs in the same way.)  Whatever is
    given under the labels of the two tracers, or under these without their endings,
    is not looked at. *)
Theorem C83_tracer_bcs_system_refuted : forall {B} (none : B) (x y z w : B) a b,
  tracer_bcs none [((a ++ "_2d")%string, x); ((b ++ "_2d")%string, y); (a, z); (b, w)] (a ++ "_2d" ++ "," ++ b ++ "_2d")%string = none.
Proof.
  intros B none x y z w a b. unfold tracer_bcs, drop_last3.
  assert (L : forall (p q : string), (String.length p < String.length q)%nat -> String.eqb q p = false).
  { intros p q H. destruct (String.eqb_spec q p) as [->|]; [lia|reflexivity]. }
  assert (Sub : substring 0 (String.length (a ++ "_2d" ++ "," ++ b ++ "_2d")%string - 3) (a ++ "_2d" ++ "," ++ b ++ "_2d")%string
                = (a ++ "_2d" ++ "," ++ b)%string).
  { replace (a ++ "_2d" ++ "," ++ b ++ "_2d")%string with ((a ++ "_2d" ++ "," ++ b) ++ "_2d")%string.
    - rewrite length_append. cbn [String.length].
      replace (String.length (a ++ "_2d" ++ "," ++ b) + 3 - 3)%nat with (String.length (a ++ "_2d" ++ "," ++ b)%string) by lia.
      apply substring_prefix.
    - induction a as [|c a IH]; cbn; [reflexivity|]. f_equal. apply IH.
  }
  rewrite Sub. cbn [dict_get].
  rewrite !L; try reflexivity; rewrite ?length_append; cbn [String.length String.append]; rewrite ?length_append; cbn [String.length]; lia.
Qed.

(* ------------------------------------------------------------------ *)
(** * 3D runs *)

Definition eq3_dec : forall a b : eq3, {a = b} + {a <> b}.
Proof. decide equality. Defined.
Definition term3_dec : forall a b : term3, {a = b} + {a <> b}.
Proof. decide equality; decide equality. Defined.

Definition mem3 (n : string) (e : eq3) (t : term3) : bool :=
  existsb (fun x => (String.eqb (fst (fst x)) n && (if eq3_dec (snd (fst x)) e then true else false)
                     && (if term3_dec (snd x) t then true else false))%bool) doc3d.
Lemma mem3_spec n e t : mem3 n e t = true <-> In (n, e, t) doc3d.
Proof.
  unfold mem3. rewrite existsb_exists. split.
  - intros [[[m' e'] t'] [Hi Hm]]. cbn [fst snd] in Hm.
    destruct (String.eqb_spec m' n); [|discriminate Hm].
    destruct (eq3_dec e' e); [|discriminate Hm]. destruct (term3_dec t' t); [|discriminate Hm]. congruence.
  - intros H. exists (n, e, t). split; [exact H|]. cbn [fst snd]. rewrite String.eqb_refl.
    destruct (eq3_dec e e); [|contradiction]. destruct (term3_dec t t); [reflexivity|contradiction].
Qed.
Lemma not_doc n e t : mem3 n e t = false -> ~ In (n, e, t) doc3d.
Proof. intros H H'. apply mem3_spec in H'. rewrite H' in H. discriminate H. Qed.

(** An option does nothing in a term of an equation it is not documented for. *)
Theorem C83_3d_isolated : forall fl (o o' f : attrs) n e t,
  agree_but n o o' -> ~ In (n, e, t) doc3d ->
  contribution fl o f e t = contribution fl o' f e t.
Proof.
  intros fl o o' f n e t A H.
  assert (K : forall m, In (m, e, t) doc3d -> o m = o' m).
  { intros m Hm. apply A. intros ->. exact (H Hm). }
  clear A H.
  assert (K' : forall m, mem3 m e t = true -> o m = o' m) by (intros m Hm; apply K, mem3_spec, Hm).
  clear K.
  destruct fl as [nl lfv lft fr im].
  destruct im, e, t as [t|t|t|t]; try exact eq_refl; destruct t;
    cbv -[get_sum sum_add Rplus IZR];
    repeat match goal with
    | |- context [o ?m] => rewrite (K' m) by (vm_compute; reflexivity)
    end; exact eq_refl.
Qed.

(** ** Drag, wind and vertical viscosity enter once *)
Local Notation view := (option_map now).

(** With implicit vertical diffusion they are in the implicit momentum equation,
    which has nothing else, and the explicit one has all the rest ... *)
Theorem C83_3d_implicit : forall fl (o f : attrs),
  use_implicit_vertical_diffusion fl = true ->
  (forall t, In t [MVerticalViscosity; BottomFriction; MLinearDrag] -> contribution fl o f EMomentum (TM t) = Some (Ok 0)) /\
  (forall t, In t [PressureGradient; MHorizontalAdvection; MVerticalAdvection; MHorizontalViscosity; MCoriolis] ->
     contribution fl o f EVertMomentum (TM t) = Some (Ok 0)) /\
  contribution fl o f EVertMomentum (TM MVerticalViscosity)
  = Some (match get_sum vadd (tot_v_visc o f) with Some c => Ok (body "mom.VerticalViscosityTerm" [Some (now c)]) | None => Ok 0 end) /\
  contribution fl o f EVertMomentum (TM MLinearDrag)
  = Some (match o "linear_drag_coefficient" with Some c => Ok (body "mom.LinearDragTerm" [Some (now c); None]) | None => Ok 0 end) /\
  contribution fl o f EVertMomentum (TM MSource)
  = Some (Ok (match get_sum vadd (tot_v_visc o f), view3 (wind_stress_3d o) with
              | Some _, Some w => body "mom.WindStress" [Some (now w)] | _, _ => 0 end + 0)) /\
  contribution fl o f EMomentum (TM MSource)
  = Some (Ok (0 + match o "momentum_source_3d" with Some s => body "mom.SourceTerm" [Some (now s)] | None => 0 end)).
Proof.
  intros [nl lfv lft fr im] o f E. cbn [use_implicit_vertical_diffusion] in E. subst im.
  split; [|split; [|split; [|split; [|split]]]].
  - intros t Ht. cbn in Ht. repeat (destruct Ht as [<-|Ht]; [destruct fr; reflexivity|]). destruct Ht.
  - intros t Ht. cbn in Ht. repeat (destruct Ht as [<-|Ht]; [reflexivity|]). destruct Ht.
  - cbn -[get_sum tot_v_visc]. unfold impl_v. cbn [use_implicit_vertical_diffusion]. destruct (get_sum vadd (tot_v_visc o f)); reflexivity.
  - cbn -[get_sum tot_v_visc]. unfold gv, get. cbn. destruct (o "linear_drag_coefficient"); reflexivity.
  - cbn -[get_sum tot_v_visc]. unfold impl_v. cbn -[get_sum tot_v_visc wind_stress_3d].
    destruct (get_sum vadd (tot_v_visc o f)), (view3 (wind_stress_3d o)); reflexivity.
  - cbn -[get_sum tot_v_visc]. destruct (o "momentum_source_3d"); reflexivity.
Qed.

(** ... and without it there is no implicit equation and the explicit one has them
    all; the drag then acts on the deviation plus the depth average. *)
Theorem C83_3d_explicit : forall fl (o f : attrs),
  use_implicit_vertical_diffusion fl = false ->
  (forall t, contribution fl o f EVertMomentum (TM t) = None) /\
  contribution fl o f EMomentum (TM MVerticalViscosity)
  = Some (match get_sum vadd (tot_v_visc o f) with Some c => Ok (body "mom.VerticalViscosityTerm" [Some (now c)]) | None => Ok 0 end) /\
  contribution fl o f EMomentum (TM MLinearDrag)
  = Some (match o "linear_drag_coefficient" with Some c => Ok (body "mom.LinearDragTerm" [Some (now c); view (f "uv_dav_3d")]) | None => Ok 0 end) /\
  contribution fl o f EMomentum (TM MSource)
  = Some (Ok (match get_sum vadd (tot_v_visc o f), view3 (wind_stress_3d o) with
              | Some _, Some w => body "mom.WindStress" [Some (now w)] | _, _ => 0 end
              + match o "momentum_source_3d" with Some s => body "mom.SourceTerm" [Some (now s)] | None => 0 end)).
Proof.
  intros [nl lfv lft fr im] o f E. cbn [use_implicit_vertical_diffusion] in E. subst im.
  split; [|split; [|split]].
  - reflexivity.
  - cbn -[get_sum tot_v_visc]. unfold expl_v. cbn [use_implicit_vertical_diffusion]. destruct (get_sum vadd (tot_v_visc o f)); reflexivity.
  - cbn -[get_sum tot_v_visc]. destruct (o "linear_drag_coefficient"); reflexivity.
  - cbn -[get_sum tot_v_visc wind_stress_3d]. unfold expl_v. cbn [use_implicit_vertical_diffusion].
    destruct (get_sum vadd (tot_v_visc o f)), (view3 (wind_stress_3d o)), (o "momentum_source_3d"); reflexivity.
Qed.

(** Bottom friction is in the same equation as the vertical viscosity, once, when it
    is switched on; the given coefficient takes precedence over the roughness, and
    without either the set-up fails. *)
Theorem C83_3d_bottom_friction : forall fl (o f : attrs),
  let e := if use_implicit_vertical_diffusion fl then EVertMomentum else EMomentum in
  let dav := if use_implicit_vertical_diffusion fl then None else view (f "uv_dav_3d") in
  contribution fl o f e (TM BottomFriction)
  = Some (if use_bottom_friction fl
          then match o "quadratic_drag_coefficient", o "bottom_roughness" with
               | Some c, _ => Ok (body "mom.BottomFrictionTerm" [Some (now c); None; dav])
               | None, Some z0 => Ok (body "mom.BottomFrictionTerm" [None; Some (now z0); dav])
               | None, None => Fail "if use_bottom_friction=True, either bottom_roughness or quadratic_drag_coefficient must be defined"
               end
          else Ok 0).
Proof.
  intros [nl lfv lft fr im] o f. cbn [use_implicit_vertical_diffusion use_bottom_friction].
  destruct im, fr; cbn -[get_sum tot_v_visc String.append]; try reflexivity;
    destruct (o "quadratic_drag_coefficient"), (o "bottom_roughness"); reflexivity.
Qed.

(** The other terms of the 3D momentum equation. *)
Theorem C83_3d_momentum : forall fl (o f : attrs) g,
  o "lax_friedrichs_velocity_scaling_factor" = Some g ->
  let lf := if lf_velocity3 fl then Some (now g) else None in
  contribution fl o f EMomentum (TM PressureGradient)
  = Some (match f "int_pg_3d" with Some p => Ok (body "mom.PressureGradientTerm" [Some (now p)]) | None => Ok 0 end) /\
  contribution fl o f EMomentum (TM MHorizontalAdvection)
  = Some (if nonlinear3 fl then Ok (body "mom.HorizontalAdvectionTerm" [view (f "uv_dav_3d"); view (f "elev_domain_2d"); lf]) else Ok 0) /\
  contribution fl o f EMomentum (TM MVerticalAdvection)
  = Some (match f "w_3d" with
          | Some w => if nonlinear3 fl then Ok (body "mom.VerticalAdvectionTerm" [Some (now w); view (f "w_mesh_3d"); view (f "uv_dav_3d"); lf]) else Ok 0
          | None => Ok 0
          end) /\
  contribution fl o f EMomentum (TM MHorizontalViscosity)
  = Some (match get_sum vadd (tot_h_visc o f) with Some c => Ok (body "mom.HorizontalViscosityTerm" [Some (now c); view (f "uv_dav_3d")]) | None => Ok 0 end) /\
  contribution fl o f EMomentum (TM MCoriolis)
  = Some (match view3 (coriolis_3d o) with Some c => Ok (body "mom.CoriolisTerm" [Some (now c)]) | None => Ok 0 end).
Proof.
  intros [nl lfv lft fr im] o f g G. cbn [lf_velocity3 nonlinear3].
  split; [|split; [|split; [|split]]]; destruct im; cbn -[get_sum tot_v_visc tot_h_visc coriolis_3d]; rewrite ?G.
  all: unfold gv, get; cbn -[get_sum tot_v_visc tot_h_visc coriolis_3d].
  1,2: destruct (f "int_pg_3d"); reflexivity.
  1,2: destruct nl, lfv; reflexivity.
  1,2: destruct (f "w_3d"), nl, lfv; reflexivity.
  1,2: destruct (get_sum vadd (tot_h_visc o f)); reflexivity.
  all: destruct (view3 (coriolis_3d o)); reflexivity.
Qed.

(** ** The 2D mode of a 3D run *)
Theorem C83_3d_mode2d : forall fl (o f : attrs) r,
  f "split_residual_2d" = Some r ->
  contribution fl o f ESwe2d (TS MomentumSource)
  = Some (Ok (body "MomentumSourceTerm" [Some (match o "momentum_source_2d" with Some s => vadd (now r) (now s) | None => now r end)])) /\
  contribution fl o f ESwe2d (TS Coriolis)
  = Some (match o "coriolis_frequency" with Some c => Ok (body "CoriolisTerm" [Some (now c)]) | None => Ok 0 end) /\
  contribution fl o f ESwe2d (TS AtmosphericPressure)
  = Some (match o "atmospheric_pressure" with Some c => Ok (body "AtmosphericPressureTerm" [Some (now c)]) | None => Ok 0 end) /\
  contribution fl o f ESwe2d (TS ContinuitySource)
  = Some (match o "volume_source_2d" with Some c => Ok (body "ContinuitySourceTerm" [Some (now c)]) | None => Ok 0 end) /\
  (forall t, In t [WindStress; QuadraticDrag; LinearDrag; HorizontalViscosity; HorizontalAdvection] -> contribution fl o f ESwe2d (TS t) = None).
Proof.
  intros fl o f r E. split; [|split; [|split; [|split]]].
  - cbn. rewrite E. destruct (o "momentum_source_2d"); reflexivity.
  - cbn. destruct (o "coriolis_frequency"); reflexivity.
  - cbn. destruct (o "atmospheric_pressure"); reflexivity.
  - cbn. destruct (o "volume_source_2d"); reflexivity.
  - intros t Ht. cbn in Ht. repeat (destruct Ht as [<-|Ht]; [reflexivity|]). destruct Ht.
Qed.

(** ** Salinity and temperature *)
Theorem C83_3d_tracers : forall fl (o f : attrs) u w g,
  f "uv_3d" = Some u -> f "w_3d" = Some w -> o "lax_friedrichs_tracer_scaling_factor" = Some g ->
  let lf := if lf_tracer3 fl then Some (now g) else None in
  let vdiff := match get_sum vadd (tot_v_diff o f) with Some c => Ok (body "tracer3d.VerticalDiffusionTerm" [Some (now c)]) | None => Ok 0 end in
  forall e vd src, In (e, vd, src) [(ESalt, ESaltVdff, "salinity_source_3d"); (ETemp, ETempVdff, "temperature_source_3d")] ->
  contribution fl o f e (TT T3HorizontalAdvection)
  = Some (Ok (body "tracer3d.HorizontalAdvectionTerm" [Some (now u); view (f "elev_domain_2d"); view (f "uv_dav_3d"); lf])) /\
  contribution fl o f e (TT T3VerticalAdvection)
  = Some (Ok (body "tracer3d.VerticalAdvectionTerm" [Some (now w); view (f "w_mesh_3d"); lf])) /\
  contribution fl o f e (TT T3HorizontalDiffusion)
  = Some (match o "horizontal_diffusivity" with Some c => Ok (body "tracer3d.HorizontalDiffusionTerm" [Some (now c)]) | None => Ok 0 end) /\
  contribution fl o f e (TT T3Source)
  = Some (match o src with Some c => Ok (body "tracer3d.SourceTerm" [Some (now c)]) | None => Ok 0 end) /\
  contribution fl o f e (TT T3VerticalDiffusion) = Some (if use_implicit_vertical_diffusion fl then Ok 0 else vdiff) /\
  contribution fl o f vd (TT T3VerticalDiffusion) = (if use_implicit_vertical_diffusion fl then Some vdiff else None) /\
  (forall t, t <> T3VerticalDiffusion ->
     contribution fl o f vd (TT t) = if use_implicit_vertical_diffusion fl then Some (Ok 0) else None).
Proof.
  intros [nl lfv lft fr im] o f u w g U W G lf vdiff e vd src H. subst lf vdiff. cbn [lf_tracer3 use_implicit_vertical_diffusion].
  cbn in H. destruct H as [H|[H|[]]]; injection H as <- <- <-;
  (split; [|split; [|split; [|split; [|split; [|split]]]]];
   [cbn -[get_sum tot_v_diff tot_h_diff]; unfold gv, get; cbn -[get_sum tot_v_diff tot_h_diff]; rewrite U, G; destruct lft; reflexivity
   |cbn -[get_sum tot_v_diff tot_h_diff]; unfold gv, get; cbn -[get_sum tot_v_diff tot_h_diff]; rewrite W, G; destruct lft; reflexivity
   |unfold contribution, tr3_term, gv, get, tracer3d_fields, tot_h_diff; cbn; destruct (o "horizontal_diffusivity"); reflexivity
   |unfold contribution, tr3_term, gv, get, tracer3d_fields; cbn -[get_sum tot_v_diff tot_h_diff]; match goal with |- context [o ?s] => destruct (o s) end; reflexivity
   |unfold contribution, tr3_term, gv, get, tracer3d_fields; cbn -[get_sum tot_v_diff]; unfold expl_v; cbn [use_implicit_vertical_diffusion]; destruct im, (get_sum vadd (tot_v_diff o f)); reflexivity
   |unfold contribution, tr3_term, gv, get, tracer3d_vdff_fields; cbn -[get_sum tot_v_diff]; unfold impl_v; cbn [use_implicit_vertical_diffusion]; destruct im, (get_sum vadd (tot_v_diff o f)); reflexivity
   |intros t Ht; destruct im; [destruct t; try contradiction|]; reflexivity]).
Qed.

(** ** Sums of coefficients *)

(** The total of any list of coefficients, some of them unset, is the sum of those
    that are set, and unset when none is. *)
Theorem C83_sum : forall (z : V) (l : list (option coef)),
  (forall x, vadd z x = x) ->
  option_map now (get_sum vadd (fold_left sum_add l []))
  = if existsb (fun c => match c with Some _ => true | None => false end) l
    then Some (fold_left (fun a c => match c with Some c => vadd a (now c) | None => a end) l z)
    else None.
Proof.
  intros z l Z.
  assert (Acc : forall l (p : list coef), fold_left sum_add l p = (p ++ flat_map (fun c => match c with Some c => [c] | None => [] end) l)%list).
  { clear. induction l as [|c l IH]; intros p; cbn [fold_left flat_map]; [now rewrite app_nil_r|].
    rewrite IH. destruct c; cbn [sum_add app]; [now rewrite <- app_assoc|reflexivity]. }
  rewrite Acc. cbn [app].
  assert (Fold : forall l (c : coef), now (fold_left (fun a b => CExpr (vadd (now a) (now b))) (flat_map (fun c => match c with Some c => [c] | None => [] end) l) c)
                 = fold_left (fun a c => match c with Some c => vadd a (now c) | None => a end) l (now c)).
  { clear. induction l as [|c l IH]; intros a; cbn [flat_map fold_left]; [reflexivity|].
    destruct c as [c|]; cbn [app fold_left]; [rewrite IH; reflexivity|apply IH]. }
  induction l as [|c l IH]; cbn [flat_map existsb]; [reflexivity|].
  destruct c as [c|]; cbn [app orb fold_left]; [|exact IH].
  cbn [get_sum option_map]. rewrite Fold. now rewrite Z.
Qed.

(** ** What is ignored *)

(** (Refuted: every drag option of a 3D run acts on the flow.)  The Manning
    coefficient and the Nikuradse roughness do nothing. *)
Theorem C83_3d_manning_ignored_refuted : forall fl (o o' f : attrs) n,
  In n ["manning_drag_coefficient"; "nikuradse_bed_roughness"] ->
  agree_but n o o' -> forall e t, contribution fl o f e t = contribution fl o' f e t.
Proof.
  intros fl o o' f n Hn A e t. apply (C83_3d_isolated fl o o' f n e t A).
  apply not_doc. cbn in Hn. destruct Hn as [<-|[<-|[]]]; destruct e, t as [t|t|t|t]; try destruct t; vm_compute; reflexivity.
Qed.

(** (Refuted: a quadratic drag coefficient acts on the flow.)  It does nothing in a
    3D run unless use_bottom_friction is set. *)
Theorem C83_3d_drag_ignored_refuted : forall fl (o o' f : attrs),
  use_bottom_friction fl = false ->
  agree_but "quadratic_drag_coefficient" o o' -> forall e t, contribution fl o f e t = contribution fl o' f e t.
Proof.
  intros [nl lfv lft fr im] o o' f E A e t. cbn [use_bottom_friction] in E. subst fr.
  destruct e, t as [t|t|t|t]; destruct t;
    try (apply (C83_3d_isolated _ o o' f "quadratic_drag_coefficient" _ _ A); apply not_doc; vm_compute; reflexivity).
  - reflexivity.
  - destruct im; reflexivity.
Qed.

(** (Refuted: the wind drives a 3D run.)  Without any vertical viscosity and without a
    turbulence model the stress is ignored (the code logs a warning). *)
Theorem C83_3d_wind_ignored_refuted : forall fl (o o' f : attrs),
  o "vertical_viscosity" = None -> f "eddy_visc_3d" = None ->
  agree_but "wind_stress" o o' -> forall e t, contribution fl o f e t = contribution fl o' f e t.
Proof.
  intros fl o o' f E F A e t.
  assert (E' : o' "vertical_viscosity" = None) by (rewrite <- (A "vertical_viscosity"); [exact E|discriminate]).
  assert (Sv : forall p : attrs, p "vertical_viscosity" = None -> get_sum vadd (tot_v_visc p f) = None).
  { intros p P. unfold tot_v_visc. rewrite P, F. reflexivity. }
  assert (M : o "momentum_source_3d" = o' "momentum_source_3d") by (apply A; discriminate).
  destruct (use_implicit_vertical_diffusion fl) eqn:Im.
  - destruct (C83_3d_implicit fl o f Im) as (_ & _ & _ & _ & W & S0).
    destruct (C83_3d_implicit fl o' f Im) as (_ & _ & _ & _ & W' & S0').
    rewrite (Sv o E) in W. rewrite (Sv o' E') in W'.
    destruct e, t as [t|t|t|t]; destruct t;
    try (apply (C83_3d_isolated _ o o' f "wind_stress" _ _ A); apply not_doc; vm_compute; reflexivity).
    + rewrite S0, S0', M. reflexivity.
    + rewrite W, W'. reflexivity.
  - destruct (C83_3d_explicit fl o f Im) as (N & _ & _ & S0).
    destruct (C83_3d_explicit fl o' f Im) as (N' & _ & _ & S0').
    rewrite (Sv o E) in S0. rewrite (Sv o' E') in S0'.
    destruct e, t as [t|t|t|t]; destruct t;
    try (apply (C83_3d_isolated _ o o' f "wind_stress" _ _ A); apply not_doc; vm_compute; reflexivity).
    + rewrite S0, S0', M. reflexivity.
    + rewrite N, N'. reflexivity.
Qed.

(** ** Turbulence closure *)

(** The two-equation closure works with implicit vertical diffusion ... *)
Theorem C83_3d_gls : forall fl (o f : attrs) nu mu,
  use_implicit_vertical_diffusion fl = true -> f "eddy_visc_3d" = Some nu -> f "eddy_diff_3d" = Some mu ->
  let tot x y := match x with Some b => vadd (now b) (now y) | None => now y end in
  let n := tot (o "vertical_viscosity") nu in let m := tot (o "vertical_diffusivity") mu in
  contribution fl o f ETke (TG GlsDiffusion) = Some (Ok (body "tke.diffusion" [Some n])) /\
  contribution fl o f EPsi (TG GlsDiffusion) = Some (Ok (body "psi.diffusion" [Some n])) /\
  contribution fl o f ETke (TG GlsSource)
  = Some (Ok (body "tke.source" [Some n; Some m; None; view (f "eps_3d"); view (f "shear_freq_3d"); view (f "buoy_freq_neg"); view (f "buoy_freq_pos"); None])) /\
  contribution fl o f EPsi (TG GlsSource)
  = Some (Ok (body "psi.source" [Some n; Some m; view (f "tke_3d"); view (f "eps_3d"); view (f "shear_freq_3d"); view (f "buoy_freq_neg");
                                 view (f "buoy_freq_pos"); view (o "bottom_roughness")])).
Proof.
  intros [nl lfv lft fr im] o f nu mu E N M tot n m. subst tot n m. cbn [use_implicit_vertical_diffusion] in E. subst im.
  unfold contribution, gls_term, turb_fields, gv, get, impl_v, tot_v_visc, tot_v_diff. cbn [use_implicit_vertical_diffusion].
  rewrite N, M.
  destruct (o "vertical_viscosity"), (o "vertical_diffusivity"); cbn; repeat split; reflexivity.
Qed.
(** ... and cannot be set up without it.  (Refuted: use_turbulence and
    use_implicit_vertical_diffusion can be chosen independently.) *)
Theorem C83_3d_gls_explicit_refuted : forall fl (o f : attrs) e t,
  use_implicit_vertical_diffusion fl = false -> In e [ETke; EPsi] -> contribution fl o f e (TG t) = Some (Fail "TypeError").
Proof.
  intros [nl lfv lft fr im] o f e t E H. cbn [use_implicit_vertical_diffusion] in E. subst im.
  cbn in H. destruct H as [<-|[<-|[]]]; destruct t; reflexivity.
Qed.
End Wiring.

(* ------------------------------------------------------------------ *)
(** * The table of 3D runs has no superfluous line *)

(** Every line of [doc3d] is needed: there is a run in which the option changes the
    term.  Coefficients are Booleans added by [orb] and a term counts the true ones. *)
Definition count (n : string) (l : list (option bool)) : R :=
  fold_right (fun c a => match c with Some true => 1 + a | _ => a end) 0 l.
Definition fl1 (im : bool) : flags3d :=
  {| nonlinear3 := true; lf_velocity3 := true; lf_tracer3 := true; use_bottom_friction := true; use_implicit_vertical_diffusion := im |}.
Definition off (n : string) (v : option (@Wiring_Model.coef bool)) (o : string -> option (@Wiring_Model.coef bool)) m :=
  if String.eqb m n then v else o m.
Definition on_all : string -> option (@Wiring_Model.coef bool) := fun _ => Some (CConst true).
Definition fields_false : string -> option (@Wiring_Model.coef bool) := fun _ => Some (CConst false).
Definition gate (n : string) (t : term3) : bool :=
  match t with TM MSource => String.eqb n "vertical_viscosity" | _ => false end.
Definition explicit_eq (e : eq3) : bool := match e with EMomentum | ESalt | ETemp => true | _ => false end.
Definition base3 (n : string) := if String.eqb n "bottom_roughness" then off "quadratic_drag_coefficient" None on_all else on_all.
Definition changed3 (n : string) (t : term3) := off n (if gate n t then None else Some (CConst false)) (base3 n).
Definition fields3 (n : string) (t : term3) := if gate n t then (fun _ => None) else fields_false.
Definition value (r : option res) : R := match r with Some (Ok x) => x | _ => 0 end.
Definition runs (r : option res) : bool := match r with Some (Ok _) => true | _ => false end.

Theorem C83_3d_exact : forall n e t, In (n, e, t) doc3d ->
  exists fl o o' f, agree_but n o o' /\ fields_ok o = true /\ fields_ok o' = true /\
    runs (Wiring_Model.contribution orb count fl o f e t) = true /\
    runs (Wiring_Model.contribution orb count fl o' f e t) = true /\
    value (Wiring_Model.contribution orb count fl o f e t) <> value (Wiring_Model.contribution orb count fl o' f e t).
Proof.
  intros n e t H. exists (fl1 (negb (explicit_eq e))), (base3 n), (changed3 n t), (fields3 n t).
  split.
  { intros m Hm. unfold changed3, off at 1. destruct (String.eqb_spec m n); [contradiction|reflexivity]. }
  cbn in H. repeat (destruct H as [H|H]; [injection H as <- <- <-;
    (split; [reflexivity|split; [reflexivity|split; [reflexivity|split; [reflexivity|]]]]);
    cbv -[Rplus Rmult Ropp IZR R]; lra|]).
  destruct H.
Qed.

(** a run with bottom friction, wind and a turbulence model *)
Example C83_3d_ex :
  let o n := if String.eqb n "bottom_roughness" then Some (CConst 3) else if String.eqb n "wind_stress" then Some (CFun 5 5)
             else if String.eqb n "vertical_viscosity" then Some (CConst 1) else if String.eqb n "lax_friedrichs_velocity_scaling_factor" then Some (CConst 1)
             else None in
  let f n := if String.eqb n "eddy_visc_3d" then Some (CFun 7 6) else if String.eqb n "uv_dav_3d" then Some (CFun 2 2)
             else if String.eqb n "eddy_diff_3d" then Some (CFun 1 1) else None in
  let b (n : string) l := fold_right (fun c a => match c with Some v => v + 2 * a | None => 2 * a end) 0 l in
  let c im := Wiring_Model.contribution Rplus b (fl1 im) o f in
  value (c true EVertMomentum (TM MVerticalViscosity)) = 8 /\
  value (c true EVertMomentum (TM MSource)) = 5 /\
  value (c true EVertMomentum (TM BottomFriction)) = 6 /\
  value (c true EMomentum (TM BottomFriction)) = 0 /\
  value (c false EMomentum (TM BottomFriction)) = 14 /\
  c false EVertMomentum (TM BottomFriction) = None /\
  c false ETke (TG GlsSource) = Some (Fail "TypeError") /\
  runs (c true ETke (TG GlsSource)) = true.
Proof. cbv -[Rplus Rmult Ropp IZR R]. repeat (split; [lra || reflexivity|]). reflexivity. Qed.

(** The names in the two tables are options of the 2D and of the 3D solver. *)
Example doc_names :
  forallb (fun x => existsb (String.eqb (fst x)) (map fst (Options_Model.oc_decls ModelOptions2d_class))) doc2d = true /\
  forallb (fun x => existsb (String.eqb (fst (fst x))) (map fst (Options_Model.oc_decls ModelOptions3d_class))) doc3d = true.
Proof. split; vm_compute; reflexivity. Qed.

(** a 2D run with a changing wind, Manning friction and two tracers *)
Example C83_2d_ex :
  let o n := if String.eqb n "wind_stress" then Some (CFun 5 4) else if String.eqb n "manning_drag_coefficient" then Some (CConst 2)
             else if String.eqb n "lax_friedrichs_velocity_scaling_factor" then Some (CConst 1) 
             else if String.eqb n "tracer_advective_velocity_factor" then Some (CConst 3) 
             else if String.eqb n "lax_friedrichs_tracer_scaling_factor" then Some (CConst 1) else None in
  let f n := if String.eqb n "uv_2d" then Some (CFun 7 6) else if String.eqb n "elev_2d" then Some (CFun 2 1) else None in
  let b (n : string) l := fold_right (fun c a => match c with Some v => v + 2 * a | None => 2 * a end) 0 l in
  let fl := {| use_nonlinear_equations := true; use_lax_friedrichs_velocity := true; u_discontinuous := true |} in
  let val r := match r with Ok x => x | Fail _ => 0 end in
  let d := tracer_fields o f (fun l => if String.eqb l "a_2d" then Some (CConst 9) else None) (fun l => if String.eqb l "b_2d" then Some (CFun 8 3) else None)
             ["a_2d"; "b_2d"] in
  val (Wiring_Model.swe_term b fl (swe_fields o) WindStress) = 5 /\
  val (Wiring_Model.swe_term b fl (fields_old (swe_fields o)) WindStress) = 4 /\
  val (Wiring_Model.swe_term b fl (swe_fields o) QuadraticDrag) = 2 /\
  val (tr2_term b false true false "a_2d" d TrDiffusion) = 9 /\
  val (tr2_term b false true false "b_2d" d TrDiffusion) = 0 /\
  val (tr2_term b false true false "a_2d" d TrSource) = 0 /\
  val (tr2_term b false true false "b_2d" (fields_old d) TrSource) = 3.
Proof. cbv -[Rplus Rmult Ropp IZR R]. repeat (split; [lra || reflexivity|]). lra. Qed.

Print Assumptions C83_swe_isolated.
Print Assumptions C83_swe_one_term.
Print Assumptions C83_swe_value.
Print Assumptions C83_swe_drag.
Print Assumptions C83_swe_advection.
Print Assumptions C83_bottom_drag_3d_unused.
Print Assumptions C83_swe_plain.
Print Assumptions C83_tracer_entries.
Print Assumptions C83_tracer_isolated.
Print Assumptions C83_tracer_value.
Print Assumptions C83_tracer_factor_expression_refuted.
Print Assumptions C83_sediment_factor.
Print Assumptions C83_sediment_factor_refuted.
Print Assumptions C83_tracer_bcs.
Print Assumptions C83_tracer_bcs_system_refuted.
Print Assumptions C83_3d_isolated.
Print Assumptions C83_3d_implicit.
Print Assumptions C83_3d_explicit.
Print Assumptions C83_3d_bottom_friction.
Print Assumptions C83_3d_momentum.
Print Assumptions C83_3d_mode2d.
Print Assumptions C83_3d_tracers.
Print Assumptions C83_sum.
Print Assumptions C83_3d_manning_ignored_refuted.
Print Assumptions C83_3d_drag_ignored_refuted.
Print Assumptions C83_3d_wind_ignored_refuted.
Print Assumptions C83_3d_gls.
Print Assumptions C83_3d_gls_explicit_refuted.
Print Assumptions C83_3d_exact.
