(** C51: boundary conditions. *)
From Coq Require Import Reals List Bool String Permutation Lra.
From Verif Require Import Forms_Model Forms_Spec Forms_Proofs.
Import ListNotations.
Open Scope R_scope.
Open Scope list_scope.
Open Scope string_scope.

Section Bnd.
Context {B : Type}.
Notation bvalue := (@bvalue B).
Notation bdict := (@bdict B).
Implicit Types (d : bdict).

Definition keys d : list string := map fst d.

(** Documented meaning: 'elev' gives the exterior elevation (else the interior
    one); the first of 'uv', 'un', 'flux' gives the exterior velocity (else the
    interior one). *)
Inductive given_eta d : option (B -> R) -> Prop :=
| GE h : bget "elev" d = Some (BScalar h) -> given_eta d (Some h)
| GN : bget "elev" d = None -> given_eta d None.

Inductive given_uv d : uvext -> Prop :=
| GUv u : bget "uv" d = Some (BVector u) -> given_uv d (UGiven u)
| GUn u : bget "uv" d = None -> bget "un" d = Some (BScalar u) -> given_uv d (UNormal u)
| GFl q : bget "uv" d = None -> bget "un" d = None -> bget "flux" d = Some (BScalar q) ->
          given_uv d (UFlux q)
| GSy : bget "uv" d = None -> bget "un" d = None -> bget "flux" d = None ->
        given_uv d USym.

Theorem C51_precedence : forall d e,
  get_bnd_functions d = Some (inl e) -> given_eta d (ex_eta e) /\ given_uv d (ex_uv e).
Proof.
  intros d e H. unfold get_bnd_functions in H.
  destruct (bget "elev" d) as [[h|h|]|] eqn:E1;
  destruct (bget "uv" d) as [[u|u|]|] eqn:E2;
  destruct (bget "un" d) as [[n|n|]|] eqn:E3;
  destruct (bget "flux" d) as [[q|q|]|] eqn:E4;
  cbn in H; try discriminate;
  injection H as <-; cbn;
  (split; [first [constructor 1; assumption | constructor 2; assumption]
          |first [constructor 1; assumption | constructor 2; assumption
                 |constructor 3; assumption | constructor 4; assumption]]).
Qed.

(** A boundary with an open tag always gets exterior values or a (shape) error:
    it is never silently treated as a wall. *)
Lemma bget_in : forall k d, In k (keys d) -> bget k d <> None.
Proof.
  induction d as [|[k' v] d IH]; cbn; [tauto|]. intros [->|H].
  - rewrite String.eqb_refl. discriminate.
  - destruct (String.eqb k' k); [discriminate|apply IH, H].
Qed.

Lemma scan_true : forall d, scan_tags d = inl true ->
  exists k, In k (keys d) /\ In k open_tags.
Proof.
  induction d as [|[k v] d IH]; cbn [scan_tags]; [discriminate|].
  destruct (negb (mem k all_tags)); [discriminate|].
  destruct (mem k open_tags) eqn:E.
  - intros _. exists k. split; [left; reflexivity|].
    unfold mem in E. apply existsb_exists in E. destruct E as (x & Hx & Ex).
    apply String.eqb_eq in Ex. subst x. exact Hx.
  - intro H. destruct (IH H) as (k' & H1 & H2). exists k'. split; [right; exact H1|exact H2].
Qed.

Theorem C51_open_has_values : forall d,
  scan_tags d = inl true -> get_bnd_functions d <> None.
Proof.
  intros d H. destruct (scan_true d H) as (k & H1 & H2). apply bget_in in H1.
  unfold get_bnd_functions. cbn in H2.
  destruct (bget "elev" d) as [e|] eqn:E1; destruct (bget "uv" d) as [u|] eqn:E2;
  destruct (bget "un" d) as [n|] eqn:E3; destruct (bget "flux" d) as [q|] eqn:E4;
  try discriminate.
  destruct H2 as [<-|[<-|[<-|[<-|[]]]]]; congruence.
Qed.

(** Which dictionaries are accepted: the first key other than 'drag', if any,
    decides. *)
Fixpoint first_key (l : list string) : option string :=
  match l with
  | [] => None
  | k :: r => if String.eqb k "drag" then first_key r else Some k
  end.

Theorem C51_accepted : forall d,
  scan_tags d = match first_key (keys d) with
                | None => inl false
                | Some k => if mem k open_tags then inl true else inr (InvalidTag k)
                end.
Proof.
  induction d as [|[k v] d IH]; [reflexivity|].
  cbn [scan_tags keys map fst first_key]. fold (keys d).
  destruct (String.eqb k "drag") eqn:E.
  - apply String.eqb_eq in E; subst k. cbn. exact IH.
  - assert (mem k all_tags = mem k open_tags) as ->.
    { unfold mem, all_tags. rewrite existsb_app. cbn [existsb]. rewrite E, !orb_false_r. reflexivity. }
    destruct (mem k open_tags); reflexivity.
Qed.

(** For dictionaries with known keys the order of the keys does not matter. *)
Lemma bget_perm : forall d d', Permutation d d' -> NoDup (keys d) ->
  forall k, bget k d = bget k d'.
Proof.
  intros d d' H. induction H as [|[k1 v1] l l' H IH|[k1 v1] [k2 v2] l|l1 l2 l3 H1 IH1 H2 IH2]; intros Hn k.
  - reflexivity.
  - cbn. rewrite IH by (inversion Hn; assumption). reflexivity.
  - cbn. destruct (String.eqb k2 k) eqn:E2, (String.eqb k1 k) eqn:E1; try reflexivity.
    apply String.eqb_eq in E1, E2. subst. cbn in Hn. inversion Hn as [|? ? Hx]. exfalso.
    apply Hx. left; reflexivity.
  - rewrite IH1 by exact Hn. apply IH2.
    apply (Permutation_NoDup (Permutation_map fst H1)), Hn.
Qed.

Lemma scan_valid : forall d, (forall k, In k (keys d) -> In k all_tags) ->
  scan_tags d = inl (existsb (fun k => mem k open_tags) (keys d)).
Proof.
  induction d as [|[k v] d IH]; intro H; [reflexivity|].
  cbn [scan_tags keys map fst existsb]. fold (keys d).
  assert (mem k all_tags = true) as ->.
  { apply existsb_exists. exists k. split; [apply H; left; reflexivity|apply String.eqb_refl]. }
  cbn [negb]. destruct (mem k open_tags); [reflexivity|].
  apply IH. intros k' Hk. apply H. right; exact Hk.
Qed.

Lemma existsb_perm : forall (f : string -> bool) l l', Permutation l l' -> existsb f l = existsb f l'.
Proof.
  intros f l l' H. induction H; cbn; [reflexivity|congruence| |congruence].
  rewrite !orb_assoc, (orb_comm (f y)). reflexivity.
Qed.

Theorem C51_key_order : forall d d',
  Permutation d d' -> NoDup (keys d) -> (forall k, In k (keys d) -> In k all_tags) ->
  resolve (Some d) = resolve (Some d').
Proof.
  intros d d' Hp Hn Ha. unfold resolve, impose_dynamic_bnd.
  assert (Hp' : Permutation (keys d) (keys d')) by (apply Permutation_map, Hp).
  rewrite (scan_valid d Ha), (scan_valid d').
  2:{ intros k Hk. apply Ha. apply (Permutation_in k (Permutation_sym Hp')), Hk. }
  rewrite (existsb_perm _ _ _ Hp').
  assert (get_bnd_functions d = get_bnd_functions d') as ->; [|reflexivity].
  unfold get_bnd_functions. rewrite !(bget_perm d d' Hp Hn). reflexivity.
Qed.

(** With an unknown key it does: the same conditions are accepted in one order
    and rejected in the other. *)
Theorem C51_invalid_key_refuted :
  exists d d' : bdict, Permutation d d' /\ NoDup (keys d) /\
    (exists e, resolve (Some d) = inl (Open e)) /\
    resolve (Some d') = inr (InvalidTag "elevation").
Proof.
  exists [("un", BScalar (fun _ => 0)); ("elevation", BScalar (fun _ => 1))],
         [("elevation", BScalar (fun _ => 1)); ("un", BScalar (fun _ => 0))].
  split; [apply perm_swap|]. split.
  { repeat constructor; cbn; intuition discriminate. }
  split; [eexists; reflexivity|reflexivity].
Qed.

(** The boundaries are accepted together exactly if each is acceptable alone, so
    the order in which they are visited does not matter. *)
Theorem C51_boundaries : forall (bc : nat -> option bdict) markers,
  (exists l, resolve_all markers bc = inl l) <->
  (forall k, In k markers -> exists r, resolve (bc k) = inl r).
Proof.
  intros bc markers. induction markers as [|k r IH]; cbn [resolve_all].
  - split; [intros _ k []|eexists; reflexivity].
  - split.
    + intros (l & H). destruct (resolve (bc k)) as [b|e] eqn:E; [|discriminate].
      destruct (resolve_all r bc) as [l'|]; [|discriminate].
      intros k' [<-|Hk]; [eexists; exact E|]. apply IH; [eexists; reflexivity|exact Hk].
    + intro H. destruct (H k (or_introl eq_refl)) as (b & ->).
      destruct (proj2 IH) as (l & ->); [|eexists; reflexivity].
      intros k' Hk. apply H. right; exact Hk.
Qed.

Theorem C51_boundary_order : forall (bc : nat -> option bdict) m m', Permutation m m' ->
  (exists l, resolve_all m bc = inl l) <-> (exists l, resolve_all m' bc = inl l).
Proof.
  intros bc m m' H. rewrite !C51_boundaries. split; intros Hk k Hin; apply Hk.
  - apply (Permutation_in k (Permutation_sym H)), Hin.
  - apply (Permutation_in k H), Hin.
Qed.

(** Each boundary gets the values of its own dictionary. *)
Theorem C51_own_conditions : forall (bc : nat -> option bdict) m l, resolve_all m bc = inl l ->
  map fst l = m /\ forall k r, In (k, r) l -> resolve (bc k) = inl r.
Proof.
  intros bc m. induction m as [|k m IH]; cbn [resolve_all]; intros l H.
  - injection H as <-. split; [reflexivity|intros k r []].
  - destruct (resolve (bc k)) as [b|e] eqn:E; [|discriminate].
    destruct (resolve_all m bc) as [l'|]; [|discriminate]. injection H as <-.
    destruct (IH l' eq_refl) as (H1 & H2). split; [cbn; rewrite H1; reflexivity|].
    intros k' r' [H|H]; [injection H as <- <-; exact E|apply H2, H].
Qed.

(** The tracer equation, given the same conditions, takes 'flux' before 'un': the
    two equations then use different velocities at the same boundary. *)
Theorem C51_tracer_velocity : forall factor d tb,
  tracer_bnd factor d = inl tb ->
  match tb_uv tb with
  | UGiven u => exists v, bget "uv" d = Some (BVector v) /\
                  u = (fun b => (factor b * fst (v b), factor b * snd (v b)))
  | UFlux q => bget "uv" d = None /\ exists v, bget "flux" d = Some (BScalar v) /\
                  q = (fun b => factor b * v b)
  | UNormal u => bget "uv" d = None /\ bget "flux" d = None /\ bget "un" d = Some (BScalar u)
  | USym => bget "uv" d = None /\ bget "flux" d = None /\ bget "un" d = None
  end /\
  (forall v, tb_value tb = Some v <-> bget "value" d = Some (BScalar v)) /\
  (forall v, tb_elev tb = Some v <-> bget "elev" d = Some (BScalar v)) /\
  (forall v, tb_diff_flux tb = Some v <-> bget "diff_flux" d = Some (BScalar v)).
Proof.
  intros factor d tb H. unfold tracer_bnd, bindb, opt_scalar in H.
  destruct (bget "elev" d) as [[e|e|]|] eqn:E1; cbn in H; try discriminate;
  destruct (bget "value" d) as [[v|v|]|] eqn:E2; cbn in H; try discriminate;
  destruct (bget "diff_flux" d) as [[f|f|]|] eqn:E3; cbn in H; try discriminate;
  destruct (bget "uv" d) as [[u|u|]|] eqn:E4; cbn in H; try discriminate;
  destruct (bget "flux" d) as [[q|q|]|] eqn:E5; cbn in H; try discriminate;
  destruct (bget "un" d) as [[n|n|]|] eqn:E6; cbn in H; try discriminate;
  injection H as <-; cbn;
  (split; [first [eexists; split; reflexivity | split; [reflexivity|eexists; split; reflexivity]
                 | repeat split; reflexivity]|]);
  (split; [intro w; split; intro K; congruence|]);
  (split; intro w; split; intro K; congruence).
Qed.

Theorem C51_same_velocity_refuted :
  exists (d : bdict) e tb, NoDup (keys d) /\ resolve (Some d) = inl (Open e) /\
    tracer_bnd (fun _ => 1) d = inl tb /\
    (exists u, ex_uv e = UNormal u) /\ (exists q, tb_uv tb = UFlux q).
Proof.
  exists [("un", BScalar (fun _ => 1)); ("flux", BScalar (fun _ => 2))].
  eexists; eexists. split.
  { repeat constructor; cbn; intuition discriminate. }
  split; [reflexivity|]. split; [reflexivity|]. split; eexists; reflexivity.
Qed.
End Bnd.

Section Flux.
Context {V F B : Type}.
Variable E : swe_env V F B.
Notation M := (e_mesh E).

(** A prescribed volume flux is positive outwards and spread so that exterior
    depth times exterior normal velocity times boundary length is the flux; the
    depth is that of the given elevation, if any. *)
Theorem C51_flux : forall e q eta_in uv_in b,
  ex_uv e = UFlux q -> dot2 (m_nb M b) (m_nb M b) = 1 ->
  hb E (eta_ext e eta_in) b <> 0 -> e_len E (m_marker M b) <> 0 ->
  hb E (eta_ext e eta_in) b * dot2 (uv_ext E e eta_in uv_in b) (m_nb M b)
  * e_len E (m_marker M b) = q b.
Proof.
  intros e q eta_in uv_in b Hq Hn Hh Hl. unfold uv_ext. rewrite Hq. cbv zeta.
  transitivity (q b * dot2 (m_nb M b) (m_nb M b)); [|rewrite Hn; ring].
  unfold dot2; cbn [fst snd]. field. split; assumption.
Qed.

Theorem C51_normal_velocity : forall e u eta_in uv_in b,
  ex_uv e = UNormal u -> dot2 (m_nb M b) (m_nb M b) = 1 ->
  dot2 (uv_ext E e eta_in uv_in b) (m_nb M b) = u b /\
  uv_ext E e eta_in uv_in b = scal2 (u b) (m_nb M b).
Proof.
  intros e u eta_in uv_in b Hq Hn. unfold uv_ext. rewrite Hq. split; [|reflexivity].
  transitivity (u b * dot2 (m_nb M b) (m_nb M b)); [|rewrite Hn; ring].
  unfold dot2; cbn [fst snd]. ring.
Qed.

(** Given both 'uv' and 'un', the viscosity term imposes 'un' while every other
    term uses 'uv'. *)
Theorem C51_viscosity_velocity_refuted :
  exists d e u, @resolve B (Some d) = inl (Open e) /\ ex_uv e = UGiven u /\
    (forall (eta : sfield V F B) (uv : vfield V F B) b, uv_ext E e (s_b eta) (vb uv) b = (5, 0)) /\
    (forall uv eta b, delta_uv E uv eta e b = Some (scal2 (unb M uv b - 7) (m_nb M b))).
Proof.
  exists [("uv", BVector (fun _ => (5, 0))); ("un", BScalar (fun _ => 7))].
  eexists. exists (fun _ => (5, 0)). split; [reflexivity|]. split; [reflexivity|].
  split; intros; reflexivity.
Qed.
End Flux.

(** Concrete: elevation and flux on one boundary, a wall with drag, an unforced
    boundary. *)
Example ex_conditions :
  exists e, resolve_all [1; 2; 3]%nat
    (fun k => match k with
              | 1%nat => Some [("drag", BScalar (fun _ : nat => 1)); ("flux", BScalar (fun _ => -100));
                               ("elev", BScalar (fun _ => 2))]
              | 2%nat => Some [("drag", BScalar (fun _ => 1))]
              | _ => None
              end) = inl [(1%nat, Open e); (2%nat, Closed); (3%nat, Closed)]
  /\ ex_eta e = Some (fun _ => 2) /\ ex_uv e = UFlux (fun _ => -100).
Proof. eexists. repeat split. Qed.

Print Assumptions C51_key_order.
Print Assumptions C51_tracer_velocity.
