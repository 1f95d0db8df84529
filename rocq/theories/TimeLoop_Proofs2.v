From Verif Require Import Num TimeLoop_Model TimeLoop_Spec TimeLoop_Proofs.

Lemma rev_case {A} (l : list A) : l = [] \/ exists l0 a, l = l0 ++ [a].
Proof. destruct l as [|x l] using rev_ind; [now left|right; eauto]. Qed.

Section M.
Context {St : Type} (adv : Qc -> St -> St).

(** *** C01 *)
Lemma run_ok y o sv t0 next E N fuel :
  resolve_end_time o t0 = Ok E -> steps_needed t0 (o_dt o) E N -> (N < fuel)%nat ->
  exists fin tr, run_from adv fuel y o sv t0 next = Ok (fin, tr) /\
    simulation_time fin = Some (clock t0 (o_dt o) N) /\
    iteration fin = (iteration sv + Z.of_nat N)%Z /\
    state fin = state_after adv t0 (o_dt o) (state sv) N /\
    advances tr = map (clock t0 (o_dt o)) (seq 0 N) /\
    yields_of tr = (if y then map (clock t0 (o_dt o)) (seq 0 N) else []) /\
    timestep_callbacks tr =
      map (fun k => (clock t0 (o_dt o) k, state_after adv t0 (o_dt o) (state sv) k)) (seq 1 N).
Proof.
  intros HE HN Hf.
  rewrite (run_from_steps adv fuel y o sv t0 next E N HE HN Hf).
  pose proof (steps_fields adv N y o t0 (l1_of sv t0 next)) as F.
  assert (Ht : l_time (l1_of sv t0 next) = t0) by (unfold l1_of; destruct (export_initial_state sv); reflexivity).
  assert (Hi : l_internal (l1_of sv t0 next) = 0%nat) by (unfold l1_of; destruct (export_initial_state sv); reflexivity).
  assert (Hit : l_iteration (l1_of sv t0 next) = iteration sv) by (unfold l1_of; destruct (export_initial_state sv); reflexivity).
  assert (Hs : l_state (l1_of sv t0 next) = state sv) by (unfold l1_of; destruct (export_initial_state sv); reflexivity).
  specialize (F Ht Hi). destruct (steps adv N y o t0 (l1_of sv t0 next)) as [l e]. simpl fst; simpl snd.
  destruct F as (F1 & F2 & F3 & F4 & F5 & F6 & F7). rewrite Hit, Hs in *.
  do 2 eexists. split; [reflexivity|]. simpl.
  rewrite F1, F3, F4. repeat split.
  - unfold evs0_of. destruct (export_initial_state sv); simpl; exact F5.
  - unfold evs0_of. destruct (export_initial_state sv); simpl; exact F6.
  - unfold evs0_of. destruct (export_initial_state sv); simpl; exact F7.
Qed.

(** *** C02 *)

Lemma run_exports_gen y o sv t0 next E N fuel sl :
  resolve_end_time o t0 = Ok E -> steps_needed t0 (o_dt o) E N -> (N < fuel)%nat ->
  export_state adv o t0 (l1_of sv t0 next) N sl ->
  exists fin tr, run_from adv fuel y o sv t0 next = Ok (fin, tr) /\
    i_export fin = (i_export sv + Z.of_nat (length sl))%Z /\
    exporter_ix fin = map (Z.add (Z.of_nat (length sl))) (ixs_after_initial sv) /\
    next_export_t fin = next + qn (length sl) * o_export_time o /\
    exports tr = initial_exports sv t0 ++
      map (fun p => expected_export adv t0 (o_dt o) (state sv) (iteration sv) (i_export sv)
                      (ixs_after_initial sv) (fst p) (snd p))
          (combine (seq 0 (length sl)) sl).
Proof.
  intros HE HN Hf Hs.
  rewrite (run_from_steps adv fuel y o sv t0 next E N HE HN Hf).
  specialize (Hs y). destruct (steps adv N y o t0 (l1_of sv t0 next)) as [l e]. simpl fst; simpl snd.
  destruct Hs as (H1 & H2 & H3 & H4).
  do 2 eexists. split; [reflexivity|]. simpl. rewrite H1, H2, H3, exports_app, H4.
  unfold l1_of, evs0_of, initial_exports, ixs_after_initial.
  destruct (export_initial_state sv); simpl; repeat split.
Qed.

Lemma run_exports_fine y o sv t0 X E N fuel :
  resolve_end_time o t0 = Ok E -> steps_needed t0 (o_dt o) E N -> (N < fuel)%nat ->
  0 < o_dt o -> o_dt o <= o_export_time o -> t_epsilon < X ->
  exists fin tr sl, run_from adv fuel y o sv t0 (t0 + X) = Ok (fin, tr) /\
    (forall k n, nth_error sl k = Some n <->
       (n <= N)%nat /\ first_step_reaching (o_dt o) (X + qn k * o_export_time o - t_epsilon) n) /\
    i_export fin = (i_export sv + Z.of_nat (length sl))%Z /\
    exporter_ix fin = map (Z.add (Z.of_nat (length sl))) (ixs_after_initial sv) /\
    exports tr = initial_exports sv t0 ++
      map (fun p => expected_export adv t0 (o_dt o) (state sv) (iteration sv) (i_export sv)
                      (ixs_after_initial sv) (fst p) (snd p))
          (combine (seq 0 (length sl)) sl).
Proof.
  intros HE HN Hf Hdt HT HX.
  destruct (schedule adv o t0 (l1_of sv t0 (t0 + X)) X N) as [sl [He [_ Hs]]]; try assumption.
  1-3: unfold l1_of; destruct (export_initial_state sv); reflexivity.
  destruct (run_exports_gen y o sv t0 (t0 + X) E N fuel sl HE HN Hf He) as (fin & tr & R1 & R2 & R3 & R4 & R5).
  exists fin, tr, sl. split; [assumption|]. split; [exact Hs|]. repeat split; assumption.
Qed.

Lemma run_exports_coarse y o sv t0 E N fuel :
  resolve_end_time o t0 = Ok E -> steps_needed t0 (o_dt o) E N -> (N < fuel)%nat ->
  0 < o_export_time o -> o_export_time o <= o_dt o ->
  exists fin tr, run_from adv fuel y o sv t0 (t0 + o_export_time o) = Ok (fin, tr) /\
    exports tr = initial_exports sv t0 ++
      map (fun k => expected_export adv t0 (o_dt o) (state sv) (iteration sv) (i_export sv)
                      (ixs_after_initial sv) k (S k)) (seq 0 N).
Proof.
  intros HE HN Hf HT Hdt.
  destruct (run_exports_gen y o sv t0 (t0 + o_export_time o) E N fuel (seq 1 N) HE HN Hf) as (fin & tr & R1 & R2 & R3 & R4 & R5).
  { apply schedule_coarse; try assumption.
    all: unfold l1_of; destruct (export_initial_state sv); reflexivity. }
  exists fin, tr. split; [assumption|]. rewrite R5, seq_length. f_equal.
  rewrite <- seq_shift.
  generalize (seq 0 N). induction l as [|a l IH]; [reflexivity|]. simpl. now rewrite IH.
Qed.

Lemma steps_at_most_one N y o t0 (l : lstate St) :
  export_between_steps true (snd (steps adv N y o t0 l)).
Proof.
  revert l. induction N as [|N IH]; intros l; simpl; [exact I|].
  pose proof (body_shape adv y o t0 l) as B. destruct (body adv y o t0 l) as [l1 e1].
  specialize (IH l1).
  assert (HB : forall r : list (event St), export_between_steps false (snd (steps adv N y o t0 l1))
     \/ snd (steps adv N y o t0 l1) = []).
  { intros _. destruct N as [|N]; [right; reflexivity|left]. simpl in IH |- *.
    pose proof (body_shape adv y o t0 l1) as B1. destruct (body adv y o t0 l1) as [l2 e2] eqn:E2.
    destruct (steps adv N y o t0 l2) as [l3 e3]. simpl in *.
    unfold body in E2. destruct (Qcleb _ _); [destruct (do_export _) as [lx ex] eqn:Ex; unfold do_export in Ex; inversion Ex; subst; clear Ex|];
      inversion E2; subst; clear E2; destruct y; simpl in IH |- *; exact IH. }
  destruct (steps adv N y o t0 l1) as [l2 e2]. simpl in *.
  destruct B as [pre [P1 [P2 [->|[r [-> _]]]]]].
  - now apply P2.
  - rewrite <- app_assoc. apply P2. simpl. split; [reflexivity|].
    destruct (HB []) as [H| ->]; [exact H|exact I].
Qed.

Lemma run_at_most_one fuel y o sv t0 next E N :
  resolve_end_time o t0 = Ok E -> steps_needed t0 (o_dt o) E N -> (N < fuel)%nat ->
  exists fin tr, run_from adv fuel y o sv t0 next = Ok (fin, tr) /\ export_between_steps true tr.
Proof.
  intros HE HN Hf. rewrite (run_from_steps adv fuel y o sv t0 next E N HE HN Hf).
  do 2 eexists. split; [reflexivity|].
  unfold evs0_of. destruct (export_initial_state sv); simpl; [|apply steps_at_most_one].
  split; [reflexivity|].
  (* after the initial export the first step starts with Advance *)
  destruct N as [|N]; [exact I|]. simpl.
  pose proof (steps_at_most_one (S N) y o t0 (l1_of sv t0 next)) as H. simpl in H.
  destruct (body adv y o t0 (l1_of sv t0 next)) as [l2 e2] eqn:E2.
  destruct (steps adv N y o t0 l2) as [l3 e3]. simpl in *.
  unfold body in E2. destruct (Qcleb _ _); [destruct (do_export _) as [lx ex] eqn:Ex; unfold do_export in Ex; inversion Ex; subst; clear Ex|];
      inversion E2; subst; clear E2; destruct y; simpl in H |- *; exact H.
Qed.

(** With dt dividing the interval, the due step is exact. *)
Lemma first_step_divides dt m k n :
  t_epsilon < dt -> (0 < m)%nat ->
  (first_step_reaching dt (qn m * dt + qn k * (qn m * dt) - t_epsilon) n <-> n = (S k * m)%nat).
Proof.
  intros Heps Hm. pose proof t_epsilon_pos as He. assert (Hdt : 0 < dt) by qc.
  assert (Hth : qn m * dt + qn k * (qn m * dt) = qn (S k * m) * dt).
  { rewrite qn_mul, qn_S. ring. }
  assert (F : first_step_reaching dt (qn m * dt + qn k * (qn m * dt) - t_epsilon) (S k * m)).
  { rewrite Hth. split; [qc|]. intros j Hj.
    assert (qn (S j) * dt <= qn (S k * m) * dt) by (apply qn_dt_mono; [assumption|lia]).
    rewrite qn_S in H. rewrite Qcmult_plus_distr_l in H. qc. }
  split; [intros H; exact (first_step_unique _ _ _ _ H F) | intros ->; exact F].
Qed.

(** *** C04 *)
Lemma app_export_inv (e1 e2 tr1 tr2 : list (event St)) e pre :
  exports pre = [] -> (e1 = pre \/ exists r, e1 = pre ++ [Export r]) ->
  e1 ++ e2 = tr1 ++ Export e :: tr2 ->
  (e1 = pre ++ [Export e] /\ e2 = tr2 /\ tr1 = pre) \/
  (exists tr1', e2 = tr1' ++ Export e :: tr2 /\ tr1 = e1 ++ tr1').
Proof.
  intros Hp He. revert e1 He tr1. induction pre as [|a pre IH]; intros e1 He tr1 H.
  - destruct He as [->|[r ->]]; simpl in H.
    + right. exists tr1. now split.
    + destruct tr1 as [|b tr1]; simpl in H.
      * inversion H; subst. left. repeat split.
      * inversion H; subst. right. exists tr1. now split.
  - assert (Hp' : exports pre = []).
    { unfold exports in *. simpl in Hp. apply app_eq_nil in Hp. apply Hp. }
    assert (Ha : match a with Export _ => False | _ => True end).
    { destruct a; simpl in Hp; try exact I. discriminate. }
    destruct e1 as [|a' e1]; [destruct He as [He|[r He]]; discriminate|].
    assert (a' = a /\ (e1 = pre \/ exists r, e1 = pre ++ [Export r])) as [-> He'].
    { destruct He as [He|[r He]]; inversion He; subst; split; auto. right. now exists r. }
    destruct tr1 as [|b tr1]; simpl in H.
    + inversion H; subst. contradiction.
    + inversion H; subst. destruct (IH Hp' e1 He' tr1 H2) as [(A & B & C)|[t1 [A B]]].
      * left. subst. repeat split.
      * right. exists t1. split; [assumption|]. subst. reflexivity.
Qed.

Lemma steps_split N y o t0 (l lf : lstate St) evs tr1 tr2 e :
  steps adv N y o t0 l = (lf, evs) -> evs = tr1 ++ Export e :: tr2 ->
  exists n la tr0, (0 < n <= N)%nat /\ steps adv n y o t0 l = (la, tr0 ++ [Export e]) /\
    steps adv (N - n) y o t0 la = (lf, tr2) /\
    l_i_export la = ev_i_export e /\ l_time la = ev_time e /\ l_iteration la = ev_iteration e /\
    l_state la = ev_state e /\ l_ix la = map (Z.add 1) (ev_indices e).
Proof.
  revert l evs tr1. induction N as [|N IH]; intros l evs tr1 H He.
  - simpl in H. inversion H; subst. destruct tr1; discriminate.
  - simpl in H. pose proof (body_shape adv y o t0 l) as B.
    destruct (body adv y o t0 l) as [l1 e1] eqn:Eb.
    destruct (steps adv N y o t0 l1) as [l2 e2] eqn:Es. inversion H; subst; clear H.
    destruct B as [pre [P1 [_ P3]]].
    assert (P3' : e1 = pre \/ exists r, e1 = pre ++ [Export r]).
    { destruct P3 as [P3|[r [P3 _]]]; [now left|right; now exists r]. }
    symmetry in H2. destruct (app_export_inv e1 e2 tr1 tr2 e pre P1 P3' (eq_sym H2)) as [(A & B & C)|[t1 [A B]]].
    + subst. exists 1%nat, l1, pre. split; [lia|]. split; [simpl; rewrite Eb; now rewrite app_nil_r|].
      split; [rewrite Nat.sub_1_r; simpl; exact Es|].
      destruct P3 as [P3|[r [P3 [Pr [P4 [P5 P6]]]]]].
      * exfalso. assert (exports (pre ++ [Export e]) = exports pre) as Hc by now rewrite P3.
        rewrite exports_app in Hc. simpl in Hc. rewrite P1 in Hc. discriminate.
      * apply app_inj_tail in P3. destruct P3 as [_ P3]. inversion P3; subst. simpl. repeat split. exact P6.
    + destruct (IH l1 e2 t1 Es A) as (n & la & tr0 & Hn & S1 & S2 & R).
      exists (S n), la, (e1 ++ tr0). split; [lia|]. split.
      * simpl. rewrite Eb, S1. now rewrite app_assoc.
      * split; [exact S2|exact R].
Qed.

Definition lrel (dt t0 t0' : Qc) (l l' : lstate St) : Prop :=
  l_time l = l_time l' /\ l_iteration l = l_iteration l' /\ l_i_export l = l_i_export l' /\
  l_next l = l_next l' /\ l_ix l = l_ix l' /\ l_state l = l_state l' /\
  t0 + qn (l_internal l) * dt = t0' + qn (l_internal l') * dt.

Lemma body_rel y o t0 t0' l l' : lrel (o_dt o) t0 t0' l l' ->
  snd (body adv y o t0 l) = snd (body adv y o t0' l') /\
  lrel (o_dt o) t0 t0' (fst (body adv y o t0 l)) (fst (body adv y o t0' l')).
Proof.
  intros (H1 & H2 & H3 & H4 & H5 & H6 & H7). unfold body.
  assert (Hc : t0 + qn (S (l_internal l)) * o_dt o = t0' + qn (S (l_internal l')) * o_dt o).
  { rewrite !qn_S. rewrite !Qcmult_plus_distr_l, !Qcplus_assoc, H7. reflexivity. }
  rewrite Hc, H1, H2, H3, H4, H5, H6.
  destruct (Qcleb _ _); unfold do_export; simpl; (split; [reflexivity|]); repeat split; exact Hc.
Qed.

Lemma steps_rel N y o t0 t0' l l' : lrel (o_dt o) t0 t0' l l' ->
  snd (steps adv N y o t0 l) = snd (steps adv N y o t0' l') /\
  lrel (o_dt o) t0 t0' (fst (steps adv N y o t0 l)) (fst (steps adv N y o t0' l')).
Proof.
  revert l l'. induction N as [|N IH]; intros l l' H; simpl; [split; [reflexivity|exact H]|].
  destruct (body_rel y o t0 t0' l l' H) as [B1 B2].
  destruct (body adv y o t0 l) as [l1 e1], (body adv y o t0' l') as [l1' e1']. simpl in B1, B2.
  destruct (IH l1 l1' B2) as [I1 I2].
  destruct (steps adv N y o t0 l1) as [l2 e2], (steps adv N y o t0' l1') as [l2' e2']. simpl in *.
  split; [now rewrite B1, I1 | exact I2].
Qed.

Lemma steps_needed_shift t0 dt E N n : (n <= N)%nat ->
  steps_needed t0 dt E N -> steps_needed (clock t0 dt n) dt E (N - n).
Proof.
  intros Hn [H1 H2].
  assert (Hc : forall k, clock (clock t0 dt n) dt k = clock t0 dt (n + k)).
  { intros k. unfold clock. rewrite qn_add. ring. }
  split.
  - intros k Hk. rewrite Hc. apply H1. lia.
  - rewrite Hc. now replace (n + (N - n))%nat with N by lia.
Qed.

Lemma qceil_qz z : qceil (qz z) = z.
Proof.
  destruct (qceil_spec (qz z)) as [H1 H2]. rewrite <- qz_1, <- qz_add in H2.
  apply -> qz_le in H1. apply -> qz_lt in H2. lia.
Qed.

Variables (F : Type) (save : St -> F) (restore : F -> St -> St).
Hypothesis restore_save : forall s s1, restore (save s) s1 = s.

(** What the exporters have written for an export event of the run. *)
Definition file_of (e : export_record St) : stored F :=
  mkStored (save (ev_state e)) (KeyTime (ev_time e)) (KeyTime (ev_time e)).


Lemma run_restart y o nexp s0 s1 E m fuel fin tr tr1 e tr2 files same (next2 : solver St -> Qc -> Qc) :
  o_initial_date o = None -> o_end_time o = Some E ->
  t_epsilon < o_dt o -> (0 < m)%nat -> o_export_time o = qn m * o_dt o ->
  (* both variants of next_export_t: recomputed (2D) or the attribute (3D) *)
  (forall sv t, next2 sv t = t + o_export_time o \/ next2 sv t = next_export_t sv) ->
  run_from adv fuel y o (fresh o nexp s0) 0 (next2 (fresh o nexp s0) 0) = Ok (fin, tr) ->
  tr = tr1 ++ Export e :: tr2 ->
  files (ev_i_export e) = Some (file_of e) ->
  exists sv', load_state restore o files (mkLoad (ev_i_export e) same None None None) (fresh o nexp s1) = Ok sv' /\
    simulation_time sv' = Some (ev_time e) /\ state sv' = ev_state e /\
    iteration sv' = ev_iteration e /\
    forall fuel', (fuel <= fuel')%nat ->
    run_from adv fuel' y o sv' (ev_time e) (next2 sv' (ev_time e)) =
      Ok (set_flag (negb same) fin, (if same then [] else [Export e]) ++ tr2).
Proof.
  intros Hid HE Heps Hm HT Hnext Hrun Htr Hfile.
  assert (Hdt : 0 < o_dt o) by (pose proof t_epsilon_pos; qc).
  assert (HR : forall t, resolve_end_time o t = Ok E) by (intros t; unfold resolve_end_time; rewrite Hid; destruct (o_end_date o); now rewrite HE).
  destruct (steps_needed_exists 0 (o_dt o) E Hdt) as [N HN].
  set (sv0 := fresh o nexp s0) in *.
  assert (Hn0 : next2 sv0 0 = 0 + o_export_time o) by (destruct (Hnext sv0 0) as [-> | ->]; reflexivity).
  rewrite Hn0 in Hrun.
  assert (HTpos : t_epsilon < o_export_time o /\ o_dt o <= o_export_time o).
  { rewrite HT. assert (1 * o_dt o <= qn m * o_dt o).
    { apply Qcmult_le_compat_r; [rewrite <- qz_1; change (qz 1) with (qn 1); apply qn_le; lia | now apply Qclt_le_weak]. }
    rewrite Qcmult_1_l in H. split; [qc|exact H]. }
  destruct HTpos as [HTe HTd].
  (* the run has enough fuel *)
  assert (HNf : (N < fuel)%nat).
  { unfold run_from in Hrun. rewrite HR in Hrun. simpl in Hrun.
    destruct (loop adv fuel y o E 0 _) as [[l ev]|er] eqn:EL; [|discriminate]. clear Hrun.
    assert (G : forall fuel l0, loop adv fuel y o E 0 l0 = Ok (l, ev) ->
       l_time l0 = clock 0 (o_dt o) (l_internal l0) -> (N < fuel + l_internal l0)%nat).
    { clear - HN. induction fuel as [|fuel IH]; intros l0 H Ht; [discriminate|].
      simpl in H. destruct (Qcleb_spec (l_time l0) (E - t_epsilon)) as [G|G].
      - pose proof (body_fields adv y o 0 l0) as B. destruct (body adv y o 0 l0) as [l1 e1].
        destruct B as (B1 & B2 & _). destruct (loop adv fuel y o E 0 l1) as [[l2 e2]|] eqn:EL; [|discriminate].
        assert (N < fuel + l_internal l1)%nat.
        { revert H. intros H. inversion H; subst. clear H.
          assert (forall f x r, loop adv f y o E 0 x = Ok r -> l_time x = clock 0 (o_dt o) (l_internal x) -> (N < f + l_internal x)%nat) as GG.
          { clear - HN. induction f as [|f IHf]; intros x r H Ht; [discriminate|].
            simpl in H. destruct (Qcleb_spec (l_time x) (E - t_epsilon)) as [G|G].
            - pose proof (body_fields adv y o 0 x) as B. destruct (body adv y o 0 x) as [x1 e1].
              destruct B as (B1 & B2 & _). destruct (loop adv f y o E 0 x1) as [[l2 e2]|] eqn:EL; [|discriminate].
              specialize (IHf x1 _ EL). rewrite B1, B2 in IHf. specialize (IHf eq_refl). lia.
            - destruct (Nat.lt_ge_cases N (S f + l_internal x)) as [|Hge]; [assumption|].
              exfalso. apply G. rewrite Ht. apply (proj1 HN). lia. }
          apply (GG fuel l1 (l, e2)); [exact EL|]. now rewrite B1, B2. }
        rewrite B2 in H0. lia.
      - destruct (Nat.lt_ge_cases N (S fuel + l_internal l0)) as [|Hge]; [assumption|].
        exfalso. apply G. rewrite Ht. apply (proj1 HN). lia. }
    specialize (G fuel _ EL). simpl in G. rewrite clock_0, Nat.add_0_r in G. now apply G. }
  rewrite (run_from_steps adv fuel y o sv0 0 _ E N (HR 0) HN HNf) in Hrun.
  destruct (steps adv N y o 0 (l1_of sv0 0 (0 + o_export_time o))) as [lf evs] eqn:Est.
  simpl fst in Hrun. simpl snd in Hrun. injection Hrun as Hfin Htr'. symmetry in Hfin, Htr'.
  set (l1 := l1_of sv0 0 (0 + o_export_time o)) in *.
  (* locate the export event: step n, export number c *)
  assert (exists n la, (n <= N)%nat /\ steps adv (N - n) y o 0 la = (lf, tr2) /\
            l_i_export la = ev_i_export e /\ l_time la = ev_time e /\ l_iteration la = ev_iteration e /\
            l_state la = ev_state e /\ l_ix la = map (Z.add 1) (ev_indices e) /\
            ev_indices e = repeat (ev_i_export e) nexp /\
            l_internal la = n /\ l_iteration la = Z.of_nat n /\ l_time la = clock 0 (o_dt o) n /\
            exists c, ev_i_export e = Z.of_nat c /\ n = (c * m)%nat /\ l_next la = qn (S c) * o_export_time o)
    as (n & la & Hn & S2 & R1 & R2 & R3 & R4 & R5 & R6 & R7 & R8 & R9 & c & C1 & C2 & C3).
  { rewrite Htr in Htr'. unfold evs0_of in Htr'. simpl in Htr'.
    destruct tr1 as [|x tr1]; simpl in Htr'; inversion Htr'; subst; clear Htr'.
    - exists 0%nat, l1. split; [lia|]. split; [now rewrite Nat.sub_0_r|].
      simpl. repeat split; try reflexivity; try (now rewrite clock_0). exists 0%nat. repeat split. simpl. rewrite qn_S, qn_0. ring.
    - destruct (steps_split N y o 0 l1 lf _ tr1 tr2 e Est eq_refl) as (n & la & tr0 & Hn & S1 & S2 & R1 & R2 & R3 & R4 & R5).
      exists n, la. split; [lia|]. split; [exact S2|].
      destruct (schedule adv o 0 l1 (o_export_time o) n) as [sl [He [_ Hs]]]; try reflexivity; try assumption.
      specialize (He y). pose proof (steps_fields adv n y o 0 l1 eq_refl eq_refl) as Hf. rewrite S1 in He, Hf.
      destruct He as (X1 & X2 & X3 & X4). destruct Hf as (Y1 & Y2 & Y3 & _).
      rewrite exports_app in X4. simpl in X4.
      destruct (rev_case sl) as [->|[sl0 [a ->]]]; [simpl in X4; destruct (exports tr0); discriminate|]. rewrite app_length, Nat.add_1_r in *.
      rewrite seq_S, combine_snoc, map_app in X4 by now rewrite seq_length. simpl in X4.
      apply app_inj_tail in X4. destruct X4 as [_ X4].
      assert (Ha : nth_error (sl0 ++ [a]) (length sl0) = Some a).
      { rewrite nth_error_app2, Nat.sub_diag by lia. reflexivity. }
      apply Hs in Ha. destruct Ha as [_ Ha]. rewrite HT in Ha.
      apply first_step_divides in Ha; [|assumption|assumption].
      assert (Hna : n = a).
      { assert (Ht : clock 0 (o_dt o) n = clock 0 (o_dt o) a).
        { rewrite <- Y1, R2, X4. reflexivity. }
        unfold clock in Ht. assert (qn n * o_dt o = qn a * o_dt o) by qc.
        assert (Hq : qn n = qn a).
        { assert (Hnz := qc_pos_neq _ Hdt).
          replace (qn n) with (qn n * o_dt o / o_dt o) by (field; exact Hnz).
          rewrite H. field. exact Hnz. }
        apply qz_inj in Hq. lia. }
      assert (Hrep : forall z k, map (Z.add z) (repeat k nexp) = repeat (z + k)%Z nexp).
      { intros z k. clear. induction nexp as [|p IHp]; [reflexivity|]. simpl. now rewrite IHp. }
      repeat split; try assumption.
      + rewrite X4. unfold expected_export. cbn [ev_indices ev_i_export].
        unfold l1, l1_of, sv0, fresh, start_l, do_export.
        cbn [export_initial_state fst l_ix exporter_ix l_i_export i_export].
        rewrite Hrep, Hrep. f_equal. lia.
      + exists (S (length sl0)). split; [|split].
        * rewrite <- R1, X1. reflexivity.
        * rewrite Hna, Ha. lia.
        * rewrite X2. simpl. rewrite !qn_S. ring. }
  (* the loaded solver *)
  unfold load_state. cbn [la_i_stored]. rewrite Hfile. cbn [la_same_outputdir la_i_export la_iteration la_t sd_uv_time sd_elev_time merge_meta file_of].
  eexists. split; [reflexivity|]. cbn [simulation_time state iteration sd_fields].
  split; [reflexivity|]. split; [apply restore_save|].
  assert (Hdn : o_dt o <> 0) by now apply qc_pos_neq.
  assert (Hit : qceil (qz (ev_i_export e) * o_export_time o / o_dt o) = ev_iteration e).
  { rewrite HT, C1. change (qz (Z.of_nat c)) with (qn c).
    replace (qn c * (qn m * o_dt o) / o_dt o) with (qn (c * m)) by (rewrite qn_mul; field; exact Hdn).
    unfold qn. rewrite qceil_qz. rewrite <- R3, R8, C2. reflexivity. }
  split; [exact Hit|].
  intros fuel' Hf'.
  set (sv' := mkSolver _ _ _ _ _ _ _).
  assert (Hte : ev_time e = clock 0 (o_dt o) n) by (rewrite <- R2; exact R9).
  assert (HTn : ev_time e = qz (ev_i_export e) * o_export_time o).
  { rewrite Hte, HT, C1, C2. unfold clock. change (qz (Z.of_nat c)) with (qn c). rewrite qn_mul. ring. }
  assert (Hnx : next2 sv' (ev_time e) = l_next la).
  { rewrite C3. destruct (Hnext sv' (ev_time e)) as [-> | ->].
    - rewrite HTn, C1. change (qz (Z.of_nat c)) with (qn c). rewrite qn_S. ring.
    - unfold sv'. cbn [next_export_t]. rewrite C1. change (qz (Z.of_nat c)) with (qn c). rewrite qn_S. ring. }
  rewrite Hnx.
  assert (HN' : steps_needed (ev_time e) (o_dt o) E (N - n)).
  { rewrite Hte. apply steps_needed_shift; assumption. }
  rewrite (run_from_steps adv fuel' y o sv' (ev_time e) (l_next la) E (N - n) (HR _) HN') by lia.
  assert (Hrep : forall z k, map (Z.add z) (repeat k nexp) = repeat (z + k)%Z nexp).
  { intros z k. clear. induction nexp as [|p IHp]; [reflexivity|]. simpl. now rewrite IHp. }
  assert (Hrep2 : forall z : Z, map (fun _ : Z => z) (repeat 0%Z nexp) = repeat z nexp).
  { intros z. clear. induction nexp as [|p IHp]; [reflexivity|]. simpl. now rewrite IHp. }
  assert (Hrel : lrel (o_dt o) 0 (ev_time e) la (l1_of sv' (ev_time e) (l_next la))).
  { unfold l1_of, sv', start_l, do_export. cbn [export_initial_state exporter_ix].
    unfold fresh. cbn [exporter_ix]. rewrite Hrep2.
    destruct same; cbn [negb fst]; repeat split;
      cbn [l_time l_iteration l_i_export l_next l_ix l_state l_internal iteration i_export exporter_ix state];
      try assumption.
    - now rewrite Hit.
    - rewrite R5, R6, Hrep. f_equal. lia.
    - cbn [sd_fields file_of]. now rewrite restore_save.
    - rewrite R7, Hte. unfold clock. rewrite qn_0. ring.
    - now rewrite Hit.
    - rewrite R5, R6, !Hrep. f_equal. lia.
    - cbn [sd_fields file_of]. now rewrite restore_save.
    - rewrite R7, Hte. unfold clock. rewrite qn_0. ring. }
  destruct (steps_rel (N - n) y o 0 (ev_time e) _ _ Hrel) as [E1 E2].
  rewrite S2 in E1, E2. cbn [fst snd] in E1, E2.
  rewrite <- E1. destruct E2 as (Q1 & Q2 & Q3 & Q4 & Q5 & Q6 & _).
  subst fin. unfold finish, set_flag. cbn [simulation_time iteration i_export next_export_t exporter_ix state].
  rewrite <- Q1, <- Q2, <- Q3, <- Q4, <- Q5, <- Q6.
  f_equal. f_equal. unfold evs0_of, sv', start_l, do_export, fresh. cbn [export_initial_state exporter_ix].
  rewrite Hrep2. destruct same; [reflexivity|].
  cbn [negb snd l_i_export l_ix l_time l_iteration l_state i_export exporter_ix iteration state file_of sd_fields].
  rewrite restore_save, Hit, Z.add_0_r, <- R6. destruct e; reflexivity.
Qed.
End M.
