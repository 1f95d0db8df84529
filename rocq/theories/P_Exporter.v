(** Properties of exporters and export managers (C06, C07, C08). *)
From Coq Require Import String Ascii.
From Verif Require Import Num Exporter_Model Exporter_Spec Exporter_Proofs.
Open Scope string_scope.
Open Scope Z_scope.

(** ** C06 *)

(** Two exports of one output directory share a file only if they have the same
    prefix and the same index. *)
Theorem C06_file_names_distinct : forall dir p1 p2 legacy i1 i2,
  gen_filename dir p1 legacy i1 = gen_filename dir p2 legacy i2 -> p1 = p2 /\ i1 = i2.
Proof. exact gen_filename_inj. Qed.

(** After any history the exporter behaves as an indexed store, and no file other
    than its own is touched. *)
Theorem C06_history_is_an_indexed_store : forall (F : Type) (e : h5exporter) (m : fs F) (ops : list (h5op F)),
  let name i := gen_filename (h_dir e) (h_prefix e) (h_legacy e) i in
  let e' := fst (h5_run (e, m) ops) in let m' := snd (h5_run (e, m) ops) in
  let s := fold_left (store_step (h_legacy e) (h_include_time e)) ops
                     (mkStore (h_next e) (fun i => m (name i))) in
  h_next e' = s_next s /\ (forall i, m' (name i) = s_at s i) /\
  (forall i, h5_load e' m' i =
     match s_at s i with
     | Some (mkContent (Some f) t) => inl (f, if h_legacy e then MetaEmpty else MetaTime t)
     | _ => inr IOError
     end) /\
  (forall n, (forall i, n <> name i) -> m' n = m n).
Proof.
  intros F e m ops name e' m' s.
  destruct (run_refines ops e e m m _ (refines_init e m)) as ((C1 & C2 & C3 & C4) & H2 & H3 & H4).
  split; [exact H2|]. split; [exact H3|]. split; [|exact H4].
  intros i. unfold h5_load, e', m', s, name. rewrite <- C1, <- C2, <- C3, H3.
  destruct (s_at _ i) as [[[f|] t]|]; reflexivity.
Qed.

(** [n] exports in a row: all are readable afterwards under consecutive indices,
    and no earlier or later index is touched. *)
Theorem C06_consecutive_exports_all_kept : forall (F : Type) (e : h5exporter) (m : fs F) (ps : list (F * option Qc)),
  Forall (usable (h_legacy e) (h_include_time e)) ps ->
  let r := h5_run (e, m) (map (fun p => OpExport (fst p) (snd p)) ps) in
  h_next (fst r) = h_next e + Z.of_nat (List.length ps) /\
  (forall j f t, nth_error ps j = Some (f, t) ->
     h5_load (fst r) (snd r) (h_next e + Z.of_nat j) =
       inl (f, if h_legacy e then MetaEmpty else MetaTime (if h_include_time e then t else None))) /\
  (forall k, (k < h_next e \/ h_next e + Z.of_nat (List.length ps) <= k) ->
     h5_load (fst r) (snd r) k = h5_load e m k).
Proof.
  intros F e m ps H r.
  destruct (C06_history_is_an_indexed_store F e m (map (fun p => OpExport (fst p) (snd p)) ps)) as (H1 & H2 & H3 & _).
  destruct (consecutive_store (h_legacy e) (h_include_time e) ps
    (mkStore (h_next e) (fun i => m (gen_filename (h_dir e) (h_prefix e) (h_legacy e) i))) H) as (K1 & K2 & K3).
  cbn [s_next s_at] in *. split; [|split].
  - unfold r. now rewrite H1, K1.
  - intros j f t Hj. unfold r. rewrite H3, (K2 j (f, t) Hj). cbn [fst snd]. destruct (h_legacy e); reflexivity.
  - intros k Hk. unfold r. rewrite H3, (K3 k Hk). unfold h5_load.
    destruct (m _) as [[[f|] t]|]; reflexivity.
Qed.

(** A rejected export (no time given although it is required) is not harmless: it
    destroys the checkpoint stored before under that index. *)
Theorem C06_failed_export_keeps_old_file_refuted :
  exists (e : h5exporter) (m : fs nat) f f' t,
    let '(e1, m1, x1) := h5_export e m f (Some t) in
    let '(e2, m2, x2) := h5_export_as_index e1 m1 (h_next e) f' None in
    x1 = None /\ x2 = Some ValueError /\ h5_load e1 m1 (h_next e) = inl (f, MetaTime (Some t)) /\
    h5_load e2 m2 (h_next e) = inr IOError.
Proof.
  exists (mkH5 "out" "elev" false true 3), (fun _ => None), 5%nat, 6%nat, (qz 0).
  cbn -[gen_filename fs_write]. repeat split; unfold h5_load; cbn; reflexivity.
Qed.

(** ** C07 *)

Theorem C07_manager_history : forall call h ops m i,
  lockstep m i -> (forall t, In (MExport t) ops -> no_failure call h m t) ->
  let '(m', evs) := fold_left (mstep call h) ops (m, []) in
  lockstep m' (index_after i ops) /\
  evs = expected_history (h (m_preproc m)) (map (fun p => (fst p, fst (snd p))) (m_exporters m)) i ops.
Proof.
  intros call h ops m i HL HF. pose proof (manager_lockstep call h ops m i [] HL HF) as H.
  destruct (fold_left (mstep call h) ops (m, [])) as [m' evs]. destruct H as (H1 & _ & _ & H4).
  split; [exact H1|exact H4].
Qed.

(** Each field name is registered once, in order of first registration. *)
Theorem C07_registration_order : forall h m field k next pre,
  let m' := snd (add_export h m field k next pre) in
  map fst (m_exporters m') =
    (if existsb (String.eqb field) (map fst (m_exporters m)) then map fst (m_exporters m)
     else (map fst (m_exporters m) ++ [field])%list) /\
  (NoDup (map fst (m_exporters m)) -> NoDup (map fst (m_exporters m'))).
Proof. intros. split; [apply dict_set_keys|apply dict_set_nodup]. Qed.

(** Managers with their own dictionaries do not influence each other. *)
Theorem C07_managers_isolated : forall call h m1 m2 field k next pre time,
  m_preproc m2 <> m_preproc m1 ->
  manager_export call (fst (add_export h m1 field k next pre)) m2 time = manager_export call h m2 time.
Proof. intros. unfold manager_export. now rewrite add_export_isolated. Qed.

(** Managers created without [preproc_funcs] do. *)
Theorem C07_default_managers_isolated_refuted :
  exists call h field fn m2,
    m_preproc m2 = m_preproc (manager_new None) /\
    let h' := fst (add_export h (manager_new None) field KVtk 0 (Some fn)) in
    snd (fst (manager_export call h m2 None)) = [EvWrite field 0 None] /\
    snd (manager_export call h m2 None) = None /\
    snd (fst (manager_export call h' m2 None)) = [EvPreproc field fn] /\
    snd (manager_export call h' m2 None) = Some OtherError.
Proof.
  exists (fun _ => Raises OtherError), (fun _ => []), "elev_2d", 7%nat,
    (snd (add_export (fun _ => []) (manager_new None) "elev_2d" KVtk 0 None)).
  cbn. repeat split.
Qed.

(** A field added after some exports, with the default index, breaks the lockstep. *)
Theorem C07_late_field_lockstep_refuted :
  exists call h m field, lockstep m 3 /\
    forall i, ~ lockstep (snd (add_export h m field KVtk 0 None)) i /\
              ~ lockstep (fst (fst (manager_export call (fun _ => []) (snd (add_export h m field KVtk 0 None)) None))) i.
Proof.
  exists (fun _ => Fine), (fun _ => []), (mkManager [("elev_2d", (KVtk, 3))] 1%nat), "salt_2d".
  split; [repeat constructor|]. intros i. split; intros H; cbn in H; inversion H as [|? ? A B]; inversion B as [|? ? A' B'];
  cbn in *; lia.
Qed.

(** If a preprocessing function raises TypeError, the solver calls the manager
    again: fields that come before it are exported twice. *)
Theorem C07_once_per_export_refuted :
  exists call h ms,
    snd (solver_export call h ms (Some (qz 0))) = Some TypeError /\
    map (fun e => match e with EvWrite f i _ => Some (f, i) | _ => None end)
        (snd (fst (solver_export call h ms (Some (qz 0))))) =
      [Some ("a", 0); None; Some ("a", 1); None].
Proof.
  exists (fun _ => Raises TypeError), (fun _ => [("b", 0%nat)]),
    [mkManager [("a", (KVtk, 0)); ("b", (KVtk, 0))] 1%nat].
  split; reflexivity.
Qed.

(** 3D export leaves the velocity as it was if no exporter fails ... *)
Theorem C07_export_3d_restores_velocity : forall call h ms time uv dav,
  snd (solver_export call h ms time) = None ->
  fst (solver3d_export call h ms time uv dav) = uv.
Proof. intros call h ms time uv dav H. unfold solver3d_export. rewrite H. cbn. ring. Qed.

(** ... and otherwise leaves the depth average added to it. *)
Theorem C07_export_3d_restores_velocity_on_failure_refuted :
  exists call h ms time, forall uv dav, dav <> qz 0 ->
    fst (solver3d_export call h ms time uv dav) = (uv + dav)%Qc /\
    fst (solver3d_export call h ms time uv dav) <> uv.
Proof.
  exists (fun _ => Fine), (fun _ => []), [mkManager [("uv", (KHdf5 true, 0))] 1%nat], None.
  intros uv dav H. cbn. split; [reflexivity|]. intros E. apply H.
  assert (dav = (uv + dav) - uv)%Qc as -> by ring. rewrite E. rewrite qz_0. ring.
Qed.

(** VTK exporters: file numbers equal the export indices ... *)
Theorem C07_vtk_file_numbers : forall ops j,
  let v := fold_left vtk_step ops (vtk_set_next (vtk_new j) j) in
  v_next v = v_counter v /\ (forall file ix, In (file, ix) (v_written v) -> file = ix).
Proof.
  intros ops j v. destruct (vtk_sync ops (vtk_set_next (vtk_new j) j) eq_refl) as [H1 H2].
  split; [exact H1|]. intros file ix Hin. destruct (H2 _ Hin) as [[]|H]. exact H.
Qed.
(** ... but an exporter created with a non-zero index writes file 0 first. *)
Theorem C07_vtk_initial_index_refuted : forall j, j <> 0 ->
  v_written (vtk_export (vtk_new j)) = [(0, j)] /\ v_counter (vtk_export (vtk_new j)) <> v_next (vtk_export (vtk_new j)).
Proof. intros j H. cbn. split; [reflexivity|lia]. Qed.

(** ** C08 *)

(** The suffix is appended exactly unless the name *starts* with ".pvd" and is longer. *)
Theorem C08_suffix_characterised : forall s,
  vtk_filename s = (if (Nat.ltb (String.length ".pvd") (String.length s)) && String.prefix ".pvd" s then s else s ++ ".pvd") .
Proof.
  intros s. unfold vtk_filename, str_prefix. change (String.length ".pvd") with 4%nat.
  assert (H : String.eqb (String.substring 0 4 s) ".pvd" = String.prefix ".pvd" s).
  { destruct (String.prefix ".pvd" s) eqn:E.
    - apply String.prefix_correct in E. simpl String.length in E. rewrite E. reflexivity.
    - destruct (String.eqb_spec (String.substring 0 4 s) ".pvd") as [E2|]; [|reflexivity].
      assert (String.prefix ".pvd" s = true) by (apply String.prefix_correct; exact E2). congruence. }
  rewrite H. destruct (Nat.ltb_spec (String.length s) (4 + 1)), (Nat.ltb_spec 4 (String.length s)); try lia;
  destruct (String.prefix ".pvd" s); reflexivity.
Qed.

(** The intended rule fails both ways: a name with the suffix gets it twice, and a
    name that only starts with ".pvd" does not get it at all. *)
Theorem C08_suffix_rule_refuted :
  (forall base, base = "" \/ (exists c r, base = String c r /\ c <> "."%char) ->
     vtk_filename (base ++ ".pvd") = (base ++ ".pvd") ++ ".pvd") /\
  (exists s, ~ ends_with ".pvd" s /\ vtk_filename s = s).
Proof.
  split.
  - intros base [->|(c & r & -> & Hc)]; [reflexivity|].
    rewrite C08_suffix_characterised.
    assert (String.prefix ".pvd" (String c r ++ ".pvd") = false) as ->.
    { cbn [String.prefix append]. destruct (Ascii.ascii_dec "." c) as [E|E]; [now symmetry in E|reflexivity]. }
    now rewrite andb_false_r.
  - exists ".pvdx". split; [|reflexivity]. intros [pre H].
    destruct pre as [|a [|b [|c [|d [|f pre]]]]]; cbn in H; try discriminate.
    destruct pre; discriminate.
Qed.

(** For the file names of the shipped fields (none begins with a dot) the suffix is
    always appended exactly once. *)
Theorem C08_plain_names_get_suffix : forall c r, c <> "."%char -> vtk_filename (String c r) = String c r ++ ".pvd".
Proof.
  intros c r Hc. rewrite C08_suffix_characterised.
  assert (String.prefix ".pvd" (String c r) = false) as -> by (cbn [String.prefix]; destruct (Ascii.ascii_dec "." c) as [E|E]; [now symmetry in E|reflexivity]).
  now rewrite andb_false_r.
Qed.

(** ** Instances *)
Example C06_case :
  let e := mkH5 "outputs/hdf5" "Elevation2d" false true 99999 in
  gen_filename (h_dir e) (h_prefix e) (h_legacy e) 12 = "outputs/hdf5/Elevation2d_00012.h5" /\
  gen_filename (h_dir e) (h_prefix e) (h_legacy e) 123456 = "outputs/hdf5/Elevation2d_123456.h5" /\
  Forall (usable false true) [(1%nat, Some (qz 0)); (2%nat, Some (qz 10))] /\
  h_next (fst (h5_run (e, fun _ => None) [OpExport 1%nat (Some (qz 0)); OpExport 2%nat (Some (qz 10))])) = 100001.
Proof.
  repeat split; try reflexivity.
  apply Forall_forall. intros x [<-|[<-|[]]]; right; right; discriminate.
Qed.
Example C07_case :
  let m := mkManager [("uv_2d", (KHdf5 true, 4)); ("elev_2d", (KVtk, 4))] 1%nat in
  let call := fun _ : nat => Fine in let h := fun _ : nat => [("elev_2d", 9%nat)] in
  let ops := [MExport (Some (qz 7)); MSetNext 2; MExport (Some (qz 8))] in
  lockstep m 4 /\ (forall t, In (MExport t) ops -> no_failure call h m t) /\
  snd (fold_left (mstep call h) ops (m, [])) =
    [EvWrite "uv_2d" 4 (Some (qz 7)); EvPreproc "elev_2d" 9; EvWrite "elev_2d" 4 (Some (qz 7));
     EvWrite "uv_2d" 2 (Some (qz 8)); EvPreproc "elev_2d" 9; EvWrite "elev_2d" 2 (Some (qz 8))].
Proof.
  split; [repeat constructor|]. split; [|reflexivity].
  intros t Ht. assert (t <> None) by (destruct Ht as [E|[E|[E|[]]]]; congruence).
  repeat constructor; cbn; congruence.
Qed.

Print Assumptions C06_file_names_distinct.
Print Assumptions C06_history_is_an_indexed_store.
Print Assumptions C06_consecutive_exports_all_kept.
Print Assumptions C06_failed_export_keeps_old_file_refuted.
Print Assumptions C07_manager_history.
Print Assumptions C07_registration_order.
Print Assumptions C07_managers_isolated.
Print Assumptions C07_default_managers_isolated_refuted.
Print Assumptions C07_late_field_lockstep_refuted.
Print Assumptions C07_once_per_export_refuted.
Print Assumptions C07_export_3d_restores_velocity.
Print Assumptions C07_export_3d_restores_velocity_on_failure_refuted.
Print Assumptions C07_vtk_file_numbers.
Print Assumptions C07_vtk_initial_index_refuted.
Print Assumptions C08_suffix_characterised.
Print Assumptions C08_suffix_rule_refuted.
Print Assumptions C08_plain_names_get_suffix.
