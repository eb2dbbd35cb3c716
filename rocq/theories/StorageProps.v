(* StorageProps.v: C27 (storing is crash-atomic and durable) and C28 (the stored
   manifest reflects the instance). *)
From Verif Require Import BaseLemmas ListLemmas ManifestProofs StorageSpec StorageProofs Storage2Proofs.
Local Arguments String.eqb : simpl never.
Local Open Scope Z_scope.

(* ---------- C27: atomicity ---------- *)
(* At every point of every history of one instance sharing the directory with
   others (with crashes and reloads in between), a crash leaves each name
   either not referring to the instance, or referring to a file which holds
   exactly the object handed to the latest Store call, under that name. *)
Theorem instance_store_atomic : forall m body d evs g w cf cd n,
  man_valid m -> content_valid body -> dir_valid d -> Forall clean evs ->
  In (g, w) (points None (new_world m body d) evs) ->
  survive cd (wdir w) n = Some me ->
  exists ob, g = Some ob /\ o_name ob = n /\ holds (survive cf (wfile w)) ob.
Proof.
  intros m body d evs g w cf cd n V B D CL Hin E.
  pose proof (points_safe evs None _ (init_inv m body d V B D) CL g w Hin) as [WFw S].
  destruct (S n (crash_survive_dir w cd n WFw E)) as (ob & G & ON & DU & HO & _).
  exists ob. split; [exact G|]. split; [exact ON|].
  apply (holds_ext _ (cur (wfile w))); [|exact HO]. apply survive_durable, DU.
Qed.
Print Assumptions instance_store_atomic.

(* Durability: once Store has succeeded, and until the instance is unstored or
   started, a crash at any point finds it under its name, as it was. *)
Theorem instance_store_durable : forall m body d evs name f rest g w cf cd i,
  man_valid m -> content_valid body -> dir_valid d -> Forall clean evs ->
  let w0 := run (new_world m body d) evs in
  hnd w0 = Some i -> no_fault f -> result (EStore name f) w0 = Ok tt ->
  Forall clean rest -> Forall (fun e => takes_down e = false) rest ->
  In (g, w) (points (Some (Object name (man i) (cur (wfile w0)))) (after (EStore name f) w0) rest) ->
  survive cd (wdir w) name = Some me /\
  holds (survive cf (wfile w)) (Object name (man i) (cur (wfile w0))).
Proof.
  intros m body d evs name f rest g w cf cd i V B D CL w0 H NF R CR TD Hin.
  destruct (run_inv evs None _ (init_inv m body d V B D) CL) as [g0 I0]. fold w0 in I0.
  destruct (store_step g0 w0 name f I0 NF) as (_ & IA & Q).
  destruct (Q R ltac:(congruence)) as (i' & H' & CO & EN & DK & _).
  assert (i' = i) by congruence; subst i'.
  assert (OF : offer (EStore name f) w0 g0 = Some (Object name (man i) (cur (wfile w0)))).
  { cbn [offer]. rewrite H, CO, EN. reflexivity. }
  rewrite OF in IA.
  destruct (kept_points rest _ _ name IA DK CR TD g w Hin) as [-> KW].
  destruct (points_safe rest _ _ IA CR _ _ Hin) as [WFw S].
  destruct (S name (kept_linked _ _ KW)) as (ob & G & ON & DU & HO & _).
  split.
  - assert (X : In (survive cd (wdir w) name) (disk (wdir w) name)) by (apply survive_in, WFw).
    unfold kept in KW. rewrite KW in X. destruct X as [<-|[]]. reflexivity.
  - apply (holds_ext _ (cur (wfile w))); [apply survive_durable, DU|]. congruence.
Qed.
Print Assumptions instance_store_durable.

(* Removal: once Unstore or BeginMutation has succeeded, and until the next
   Store, no crash brings the old version back. *)
Theorem instance_removal_durable : forall m body d evs e rest g w cd n,
  man_valid m -> content_valid body -> dir_valid d -> Forall clean evs ->
  let w0 := run (new_world m body d) evs in
  hnd w0 <> None -> takes_down e = true -> clean e -> result e w0 = Ok tt ->
  Forall clean rest -> Forall (fun e => is_store e = false) rest ->
  In (g, w) (points None (after e w0) rest) ->
  survive cd (wdir w) n <> Some me.
Proof.
  intros m body d evs e rest g w cd n V B D CL w0 H TD CE R CR NS Hin E.
  destruct (run_inv evs None _ (init_inv m body d V B D) CL) as [g0 I0]. fold w0 in I0.
  pose proof (takedown_unlinks g0 w0 e I0 CE TD R H) as U.
  destruct (step_inv g0 w0 e I0 CE) as [_ [IA1 IA2]].
  assert (IA : Inv None (after e w0)).
  { split; [apply safe_unlinked; [apply IA1|exact U]|exact IA2]. }
  pose proof (unlinked_points rest None _ IA U CR NS g w Hin) as UW.
  destruct (points_safe rest _ _ IA CR _ _ Hin) as [WFw S].
  apply (UW n). eapply crash_survive_dir; eauto.
Qed.
Print Assumptions instance_removal_durable.

(* ---------- C28 ---------- *)
(* When Store succeeds, the manifest in the file is the one in memory. *)
Theorem stored_manifest_current : forall m body d evs name f i,
  man_valid m -> content_valid body -> dir_valid d -> Forall clean evs ->
  let w0 := run (new_world m body d) evs in
  hnd w0 = Some i -> no_fault f -> result (EStore name f) w0 = Ok tt ->
  exists j, hnd (after (EStore name f) w0) = Some j /\ man j = man i /\ iname j = name /\
    load_manifest (cur (wfile (after (EStore name f) w0))) = Ok (man j).
Proof.
  intros m body d evs name f i V B D CL w0 H NF R.
  destruct (run_inv evs None _ (init_inv m body d V B D) CL) as [g0 I0]. fold w0 in I0.
  destruct (store_step g0 w0 name f I0 NF) as (_ & IA & Q).
  destruct (Q R ltac:(congruence)) as (i' & H' & CO & EN & DK & j & HJ & MJ & NJ & LJ).
  assert (i' = i) by congruence; subst i'. exists j. rewrite MJ. auto.
Qed.
Print Assumptions stored_manifest_current.

(* Every method that changes the manifest marks it as needing to be written. *)
Theorem manifest_changes_are_dirty : forall e w i j,
  is_setter e = true -> hnd w = Some i -> hnd (after e w) = Some j ->
  man j = man i \/ manDirty j = true.
Proof.
  intros e w i j IS H H'. unfold after in H'.
  assert (X : forall f, hnd (snd (fst (assign f w))) = Some j -> (forall i, f i = i \/ manDirty (f i) = true) ->
     man j = man i \/ manDirty j = true).
  { intros f E F. cbn in E. rewrite H in E. injection E as <-. destruct (F i) as [E | E]; rewrite E; auto. }
  destruct e; try discriminate IS; cbn [exec] in H'.
  - apply (X _ H'). intros k. unfold SetFinal, set_flags. destruct (_ =? _); auto.
  - apply (X _ H'). intros k. unfold SetDebugInfo, set_flags. destruct (_ =? _); auto.
  - apply (X _ H'). intros k. unfold SetTrap. destruct (_ =? _); auto.
  - apply (X _ H'). intros k. unfold SetResult. destruct (_ =? _); auto.
  - apply (X _ H'). intros k. unfold SetBreakpoints. destruct (same_list _ _); auto.
  - unfold CheckMutation, on_inst in H'. rewrite H in H'.
    destruct (coherent i); [left; cbn in H'; congruence|]. destruct (negb _); [left; cbn in H'; congruence|].
    destruct (_ =? 0); cbn in H'; rewrite H in H'; injection H' as <-; auto.
Qed.
Print Assumptions manifest_changes_are_dirty.

(* The setters do set: their effect is visible through the getters. *)
Theorem setters_take_effect : forall w i,
  hnd w = Some i ->
  (forall id, exists j, hnd (after (ESetTrap id) w) = Some j /\ s_trap (snapshot_of (man j)) = id /\
     s_result (snapshot_of (man j)) = s_result (snapshot_of (man i)) /\
     s_breaks (snapshot_of (man j)) = s_breaks (snapshot_of (man i)) /\
     s_flags (snapshot_of (man j)) = s_flags (snapshot_of (man i))) /\
  (forall n, exists j, hnd (after (ESetResult n) w) = Some j /\ s_result (snapshot_of (man j)) = n /\
     s_trap (snapshot_of (man j)) = s_trap (snapshot_of (man i)) /\
     s_breaks (snapshot_of (man j)) = s_breaks (snapshot_of (man i)) /\
     s_flags (snapshot_of (man j)) = s_flags (snapshot_of (man i))) /\
  (forall l, exists j, hnd (after (ESetBreakpoints l) w) = Some j /\ s_breaks (snapshot_of (man j)) = l /\
     s_trap (snapshot_of (man j)) = s_trap (snapshot_of (man i)) /\
     s_result (snapshot_of (man j)) = s_result (snapshot_of (man i)) /\
     s_flags (snapshot_of (man j)) = s_flags (snapshot_of (man i))) /\
  (exists j, hnd (after ESetFinal w) = Some j /\ Z.testbit (s_flags (snapshot_of (man j))) 0 = true /\
     Z.testbit (s_flags (snapshot_of (man j))) 1 = Z.testbit (s_flags (snapshot_of (man i))) 1) /\
  (forall b, exists j, hnd (after (ESetDebugInfo b) w) = Some j /\ Z.testbit (s_flags (snapshot_of (man j))) 1 = b /\
     Z.testbit (s_flags (snapshot_of (man j))) 0 = Z.testbit (s_flags (snapshot_of (man i))) 0).
Proof.
  intros w i H.
  assert (A : forall f, hnd (snd (fst (assign f w))) = Some (f i)) by (intros f; cbn; rewrite H; reflexivity).
  assert (SF : forall k fl, s_flags (snapshot_of (man (set_flags k fl))) = fl).
  { intros k fl. unfold set_flags. destruct (_ =? fl) eqn:E; [lia|reflexivity]. }
  unfold after; cbn [exec]. split; [|split; [|split; [|split]]].
  - intros id. eexists. split; [apply A|]. unfold SetTrap. destruct (_ =? id) eqn:E; [apply Z.eqb_eq in E; auto|cbn; auto].
  - intros n. eexists. split; [apply A|]. unfold SetResult. destruct (_ =? n) eqn:E; [apply Z.eqb_eq in E; auto|cbn; auto].
  - intros l. eexists. split; [apply A|]. unfold SetBreakpoints. destruct (same_list _ l) eqn:E; [|cbn; auto].
    assert (SL : forall a b, same_list a b = true -> a = b).
    { induction a as [|x a IH]; intros [|y b] Q; cbn in Q; try discriminate; [reflexivity|].
      apply andb_prop in Q as [Q1 Q2]. f_equal; [lia|auto]. }
    auto.
  - eexists. split; [apply A|]. unfold SetFinal. rewrite SF. rewrite !Z.lor_spec. split; [apply orb_true_r|apply orb_false_r].
  - intros b. eexists. split; [apply A|]. unfold SetDebugInfo. rewrite SF.
    destruct b; rewrite ?Z.lor_spec, ?Z.ldiff_spec.
    + split; [apply orb_true_r|apply orb_false_r].
    + split; [apply andb_false_r|apply andb_true_r].
Qed.
Print Assumptions setters_take_effect.

(* Loading (after a restart, a crash or closing) never fails on a name which
   refers to the instance, and gives back the manifest of the latest Store. *)
Theorem loaded_manifest_is_stored : forall m body d evs g name,
  man_valid m -> content_valid body -> dir_valid d -> Forall clean evs ->
  let w := run (new_world m body d) evs in
  In (g, w) (points None (new_world m body d) evs) ->
  hnd w = None -> cur (wdir w) name = Some me ->
  exists ob j, g = Some ob /\ o_name ob = name /\ result (ELoad name) w = Ok tt /\
    hnd (after (ELoad name) w) = Some j /\ man j = o_man ob /\ manDirty j = false /\ coherent j = true /\ iname j = name /\
    (forall o, 0 <= o < instManifestOffset -> cur (wfile w) o = o_body ob o).
Proof.
  intros m body d evs g name V B D CL w Hin H CU.
  pose proof (points_safe evs None _ (init_inv m body d V B D) CL g w Hin) as [WFw S].
  assert (LK : linked w name) by (unfold linked; rewrite <- CU; apply WFw).
  destruct (S name LK) as (ob & G & ON & DU & [LD BO] & OV & NN).
  exists ob. eexists. split; [exact G|]. split; [exact ON|].
  unfold result, after. cbn [exec]. unfold LoadInstance. rewrite H, CU, LD. unfold me.
  split; [reflexivity|]. split; [reflexivity|]. cbn. auto.
Qed.
Print Assumptions loaded_manifest_is_stored.

(* A changed manifest reaches the disk by unstoring and storing again. *)
Definition ex_man : iman := IMan 0 65536 0 8 65536 131072 0 None (Some (Func 3 77)) None.
Definition ex_body : Z -> Z := fun o => if (0 <=? o) && (o <? 1000) then o mod 256 else 0.
Definition ex_dir : dir := on_disk (fun n => if String.eqb n "other" then Some 5%nat else None).
Definition nofault := Faults None false false false false.
Example ex_man_valid : man_valid ex_man.
Proof. unfold man_valid, u32_ok, u64_ok; cbn; unfold u32_ok; repeat split; lia. Qed.
Example ex_body_valid : content_valid ex_body.
Proof. intros o. unfold ex_body, is_byte. destruct (_ && _); [|lia]. pose proof (Z.mod_pos_bound o 256). lia. Qed.
Example ex_dir_valid : dir_valid ex_dir.
Proof.
  intros n. split; [left; reflexivity|]. intros [E|[]]. unfold ex_dir, on_disk, cur in E.
  destruct (String.eqb n "other"); discriminate.
Qed.

(* A history: store, crash picking older values wherever the disk allows,
   load, set the trap, store (refused: already stored), unstore, store, close. *)
Definition ex_history : list event :=
  [ EStore "other" nofault; EStore "x" nofault; ECrash (fun _ => 1%nat) (fun _ => 1%nat); ELoad "x";
    ESetTrap 7; EStore "x" nofault; EUnstore nofault; EEnvLink "y" 9; EStore "x" nofault ].
Example ex_history_clean : Forall clean ex_history.
Proof. unfold ex_history, clean, no_fault, s32_ok. repeat constructor; lia. Qed.
Example ex_history_results :
  map (fun k => result (nth k ex_history EClose) (run (new_world ex_man ex_body ex_dir) (firstn k ex_history))) (seq 0 9) =
  [Err; Ok tt; Ok tt; Ok tt; Ok tt; Err; Ok tt; Ok tt; Ok tt].
Proof. vm_compute. reflexivity. Qed.
Example ex_history_end :
  match hnd (run (new_world ex_man ex_body ex_dir) ex_history) with
  | Some i => s_trap (snapshot_of (man i)) = 7 /\ iname i = "x"%string /\ m_entry (man i) = Some (Func 3 77)
  | None => False
  end.
Proof. vm_compute. auto. Qed.
Example ex_history_disk :
  load_manifest (survive (fun _ => 1%nat) (wfile (run (new_world ex_man ex_body ex_dir) ex_history))) =
  Ok (with_snap ex_man (Snap 0 7 0 0 [])).
Proof. vm_compute. reflexivity. Qed.
(* Before the store has synced, the crash can lose everything. *)
Example ex_before_store :
  survive (fun _ => 1%nat) (wfile (new_world ex_man ex_body ex_dir)) 17 = 0 /\
  cur (wfile (new_world ex_man ex_body ex_dir)) 17 = 17.
Proof. vm_compute. auto. Qed.

(* ---------- where it does not hold ---------- *)
(* An instance made by Build.FinishInstance is not marked dirty: Store succeeds
   without writing a manifest, and the stored instance cannot be loaded. *)
Theorem built_instance_store_refuted :
  ~ (forall m body d name f,
      man_valid m -> content_valid body -> dir_valid d -> no_fault f ->
      result (EStore name f) (built_world m body d) = Ok tt ->
      load_manifest (cur (wfile (after (EStore name f) (built_world m body d)))) = Ok m).
Proof.
  intros H. specialize (H ex_man ex_body ex_dir "x"%string nofault ex_man_valid ex_body_valid ex_dir_valid).
  assert (E : load_manifest (cur (wfile (after (EStore "x" nofault) (built_world ex_man ex_body ex_dir)))) = Err)
    by (vm_compute; reflexivity).
  rewrite E in H. discriminate H; [repeat split|vm_compute; reflexivity].
Qed.
Print Assumptions built_instance_store_refuted.

(* A change made after Store does not reach the disk, and Store refuses. *)
Theorem set_after_store_not_stored_refuted :
  ~ (forall m body d evs name i,
      man_valid m -> content_valid body -> dir_valid d -> Forall clean evs ->
      let w := run (new_world m body d) evs in
      hnd w = Some i -> iname i = name -> name <> ""%string ->
      load_manifest (cur (wfile w)) = Ok (man i) \/ result (EStore name nofault) w = Ok tt).
Proof.
  intros H.
  assert (C : Forall clean [EStore "x" nofault; ESetResult 1]) by (unfold clean, no_fault, s32_ok; repeat constructor; lia).
  destruct (H ex_man ex_body ex_dir [EStore "x" nofault; ESetResult 1] "x"%string
    (Inst (with_snap ex_man (Snap 0 0 1 0 [])) true true true "x") ex_man_valid ex_body_valid ex_dir_valid C) as [E|E];
    try (vm_compute; reflexivity); try discriminate; vm_compute in E; discriminate.
Qed.
Print Assumptions set_after_store_not_stored_refuted.

(* With more breakpoints than the callers allow, Store succeeds and the stored
   manifest cannot be loaded: the size is not checked when writing. *)
Theorem oversized_manifest_refuted :
  let w := run (new_world ex_man ex_body ex_dir) [ESetBreakpoints (repeat (2 ^ 63) 500); EStore "x" nofault] in
  result (EStore "x" nofault) (run (new_world ex_man ex_body ex_dir) [ESetBreakpoints (repeat (2 ^ 63) 500)]) = Ok tt /\
  load_manifest (cur (wfile w)) = Err.
Proof. split; vm_compute; reflexivity. Qed.
Print Assumptions oversized_manifest_refuted.

(* A failed fdatasync of the file: manDirty is already cleared, so that a
   second Store writes nothing, succeeds, and the crash finds no manifest. *)
Definition sync_fault := Faults None true false false false.
Theorem store_retry_refuted :
  let w := run (new_world ex_man ex_body ex_dir) [EStore "x" sync_fault] in
  result (EStore "x" nofault) w = Ok tt /\
  let w' := after (EStore "x" nofault) w in
  survive (fun _ => 1%nat) (wdir w') "x"%string = Some me /\
  load_manifest (survive (fun o => if o <? instManifestOffset then 0%nat else 2%nat) (wfile w')) = Err.
Proof. vm_compute. auto. Qed.
Print Assumptions store_retry_refuted.

(* A failed fdatasync of the directory: the instance is in the directory but
   does not know it.  It can be started; a crash then finds, under its name, a
   file in the middle of mutation. *)
Definition dirsync_fault := Faults None false false false true.
Definition mutated_history : list event := [EStore "x" dirsync_fault; EBegin nofault; EMutate 500 [1; 2; 3]].
Theorem store_failure_then_start_refuted :
  let w := run (new_world ex_man ex_body ex_dir) mutated_history in
  survive (fun _ => 0%nat) (wdir w) "x"%string = Some me /\
  load_manifest (survive (fun _ => 0%nat) (wfile w)) = Ok ex_man /\
  survive (fun _ => 0%nat) (wfile w) 500 <> ex_body 500.
Proof. vm_compute. repeat split. discriminate. Qed.
Print Assumptions store_failure_then_start_refuted.

(* A failed unlink: BeginMutation fails once; the second attempt succeeds
   although the stored version is still in the directory. *)
Definition unlink_fault := Faults None false false true false.
Theorem begin_retry_refuted :
  let w := run (new_world ex_man ex_body ex_dir) [EStore "x" nofault; EBegin unlink_fault] in
  result (EBegin unlink_fault) (run (new_world ex_man ex_body ex_dir) [EStore "x" nofault]) = Err /\
  result (EBegin nofault) w = Ok tt /\
  let w' := run w [EBegin nofault; EMutate 500 [1; 2; 3]] in
  survive (fun _ => 0%nat) (wdir w') "x"%string = Some me /\
  survive (fun _ => 0%nat) (wfile w') 500 <> ex_body 500.
Proof. vm_compute. repeat split. discriminate. Qed.
Print Assumptions begin_retry_refuted.

(* ---------- programs ---------- *)
Definition program_worlds (marsh : bytes) (name : string) (f : faults) (w : world) : list world :=
  w :: fst (fst (storeProgram marsh name f w)) ++ [snd (fst (storeProgram marsh name f w))].
Definition file_valid (f : file) : Prop :=
  forall o, In (cur f o) (disk f o) /\ (dirty f o = false -> disk f o = [cur f o]).

(* A crash at any point of storing a program leaves under every name either
   what was (or may have been) there, or the complete program. *)
Definition program_outcome (marsh : bytes) (name : string) (w : world) (n : string) (found : option nat) (content : Z -> Z) : Prop :=
  (found = Some me -> n = name /\ load_program content = Ok marsh /\
     forall o, 0 <= o < progManifestOffset -> content o = cur (wfile w) o) /\
  (found <> Some me -> In found (disk (wdir w) n)).
Theorem program_store_atomic : forall marsh name f w w' cf cd n,
  file_valid (wfile w) -> dir_valid (wdir w) -> len marsh + 8 <= 4096 ->
  In w' (program_worlds marsh name f w) ->
  program_outcome marsh name w n (survive cd (wdir w') n) (survive cf (wfile w')).
Proof.
  intros marsh name f w w' cf cd n FV DV LM Hin.
  set (w1 := set_file (wset (bytes_at progManifestOffset (manifest_bytes programFileTag marsh))) w).
  set (R x := program_outcome marsh name w n (survive cd (wdir x) n) (survive cf (wfile x))).
  change (R w').
  assert (BASE : forall x, wdir x = wdir w -> R x).
  { intros x E. unfold R. rewrite E. pose proof (survive_in cd (wdir w) n (proj1 (DV n))) as I.
    split; [|intros _; exact I]. intros Q. rewrite Q in I. destruct (proj2 (DV n) I). }
  unfold program_worlds in Hin. destruct Hin as [<-|Hin]; [apply BASE; auto|].
  revert Hin. unfold storeProgram, seqM, sys_write, sys_sync, sys.
  destruct (f_write f) as [k|].
  { cbn [fst snd app]. intros [<-|[<-|[]]]; apply BASE; auto. }
  fold w1. destruct (f_sync f).
  { cbn [fst snd app]. intros [<-|[<-|[<-|[]]]]; apply BASE; auto. }
  set (w2 := set_file wsync w1).
  assert (DU : durable (wfile w2)).
  { intros o. unfold w2, w1, set_file. cbn [wfile wsync wset disk dirty cur].
    destruct (bytes_at _ _ o); [reflexivity|]. destruct (dirty (wfile w) o) eqn:DD; [reflexivity|apply (FV o), DD]. }
  assert (LD : load_program (cur (wfile w2)) = Ok marsh).
  { unfold load_program, w2, w1, set_file. cbn [wfile].
    change (cur (wsync ?x)) with (cur x). rewrite read_written.
    - apply payload_bytes; [split; reflexivity || discriminate|exact LM].
    - unfold manifest_bytes. rewrite !app_length, !length_le. unfold len in LM. unfold ManifestMaxSize. lia. }
  assert (BO : forall o, 0 <= o < progManifestOffset -> cur (wfile w2) o = cur (wfile w) o).
  { intros o Ho. unfold w2, w1, set_file. cbn [wfile wsync cur wset]. rewrite bytes_at_out by lia. reflexivity. }
  assert (FULL : forall x, wfile x = wfile w2 -> load_program (survive cf (wfile x)) = Ok marsh /\
    forall o, 0 <= o < progManifestOffset -> survive cf (wfile x) o = cur (wfile w) o).
  { intros x ->. pose proof (survive_durable (wfile w2) cf DU) as SD. split.
    - rewrite <- LD. unfold load_program. rewrite (read_at_ext _ _ _ (cur (wfile w2))) by auto. reflexivity.
    - intros o Ho. rewrite SD. apply BO, Ho. }
  (* directories that gained at most the new entry *)
  set (D x := (forall k, In (cur (wdir x) k) (disk (wdir x) k)) /\
     forall k v, In v (disk (wdir x) k) -> In v (disk (wdir w) k) \/ (k = name /\ v = Some me)).
  assert (LINKED : forall x, wfile x = wfile w2 -> D x -> R x).
  { intros x Fx [Cx Sx]. pose proof (survive_in cd (wdir x) n (Cx n)) as I. unfold R.
    destruct (Sx n _ I) as [I'|[-> E]].
    - split; [|intros _; exact I']. intros Q. rewrite Q in I'. destruct (proj2 (DV n) I').
    - split; [|congruence]. intros _. split; [reflexivity|]. apply FULL, Fx. }
  assert (DS : forall x, D x -> D (set_dir wsync x)).
  { intros x [Cx Sx]. split.
    - intros k. unfold set_dir. cbn [wdir wsync disk cur]. destruct (dirty (wdir x) k); [left; reflexivity|apply Cx].
    - intros k v. unfold set_dir. cbn [wdir wsync disk]. destruct (dirty (wdir x) k); [|apply Sx].
      intros [<-|[]]. apply Sx, Cx. }
  assert (D2 : D w2) by (split; [intros k; apply DV|intros k v I; left; exact I]).
  set (w3 := set_dir (wset (entry name (Some me))) w2).
  assert (D3 : D w3).
  { split.
    - intros k. unfold w3, w2, w1, set_dir, set_file. cbn [wdir wset disk cur]. unfold entry.
      destruct (String.eqb name k); [left; reflexivity|apply DV].
    - intros k v. unfold w3, w2, w1, set_dir, set_file. cbn [wdir wset disk]. unfold entry.
      destruct (String.eqb name k) eqn:E; [|auto]. apply String.eqb_eq in E. subst k. intros [<-|I]; auto. }
  assert (DF : forall x, D x -> D (set_dir wfail x)) by (intros x Dx; exact Dx).
  unfold link_program, sys_dirsync, sys.
  destruct (f_link f || String.eqb name ""); [cbn [fst snd app]; intros [<-|[<-|[<-|[<-|[]]]]]; apply BASE; auto|].
  change (cur (wdir w2) name) with (cur (wdir w) name). destruct (cur (wdir w) name) as [k|].
  - destruct (f_dirsync f); cbn [fst snd app]; intros Hin;
      repeat (destruct Hin as [<-|Hin]); try destruct Hin; try (apply BASE; reflexivity); apply LINKED; auto.
  - fold w3. destruct (f_dirsync f); cbn [fst snd app]; intros Hin;
      repeat (destruct Hin as [<-|Hin]); try destruct Hin; try (apply BASE; reflexivity); apply LINKED; auto.
Qed.
Print Assumptions program_store_atomic.

(* After success the name is on disk: with this program if it was free, with
   the program that was there otherwise. *)
Theorem program_store_durable : forall marsh name f w cd,
  file_valid (wfile w) -> dir_valid (wdir w) ->
  dirty (wdir w) name = true \/ disk (wdir w) name = [cur (wdir w) name] ->
  snd (storeProgram marsh name f w) = Ok tt ->
  survive cd (wdir (snd (fst (storeProgram marsh name f w)))) name =
  match cur (wdir w) name with Some k => Some k | None => Some me end.
Proof.
  intros marsh name f w cd FV DV OWN. unfold storeProgram, seqM, sys_write, sys_sync, link_program, sys_dirsync, sys.
  destruct (f_write f) as [k|]; [discriminate|]. destruct (f_sync f); [discriminate|].
  destruct (f_link f || String.eqb name ""); [discriminate|].
  cbn [wdir set_file]. destruct (cur (wdir w) name) as [k|] eqn:CU; destruct (f_dirsync f); try discriminate;
    intros _; cbn [fst snd].
  - assert (E : disk (wsync (wdir w)) name = [Some k]).
    { cbn [wsync disk]. rewrite CU. destruct (dirty (wdir w) name); [reflexivity|]. destruct OWN as [O|O]; [discriminate|exact O]. }
    assert (I : In (survive cd (wsync (wdir w)) name) (disk (wsync (wdir w)) name)) by (apply survive_in; rewrite E; left; symmetry; exact CU).
    rewrite E in I. destruct I as [I|[]]. symmetry. exact I.
  - set (dd := wsync (wset (entry name (Some me)) (wdir w))).
    assert (E : disk dd name = [Some me]).
    { unfold dd. cbn [wsync wset disk dirty cur]. unfold entry. rewrite String.eqb_refl. reflexivity. }
    assert (I : In (survive cd dd name) (disk dd name)).
    { apply survive_in. rewrite E. left. unfold dd. cbn [wsync wset cur]. unfold entry. rewrite String.eqb_refl. reflexivity. }
    rewrite E in I. destruct I as [I|[]]. symmetry. exact I.
Qed.
Print Assumptions program_store_durable.

Definition ex_prog := World (fresh_file ex_body) ex_dir None.
Example ex_prog_valid : file_valid (wfile ex_prog) /\ dir_valid (wdir ex_prog).
Proof. split; [|exact ex_dir_valid]. intros o. split; [left; reflexivity|discriminate]. Qed.
Example ex_prog_store :
  snd (storeProgram [1; 2; 3] "p" nofault ex_prog) = Ok tt /\
  snd (storeProgram [1; 2; 3] "other" nofault ex_prog) = Ok tt /\
  load_program (survive (fun _ => 1%nat) (wfile (snd (fst (storeProgram [1; 2; 3] "p" nofault ex_prog))))) = Ok [1; 2; 3].
Proof. vm_compute. auto. Qed.

(* A program whose manifest does not fit is stored successfully, never loads,
   and makes every later listing-and-loading of the directory fail. *)
Theorem oversized_program_refuted : forall marsh name f w,
  4088 < len marsh < 2 ^ 32 - 8 -> f_write f = None -> f_sync f = false -> f_link f = false -> f_dirsync f = false ->
  name <> ""%string -> cur (wdir w) name = None ->
  let r := storeProgram marsh name f w in
  snd r = Ok tt /\ cur (wdir (snd (fst r))) name = Some me /\ load_program (cur (wfile (snd (fst r)))) = Err.
Proof.
  intros marsh name f w L F1 F2 F3 F4 NN CU. apply String.eqb_neq in NN.
  unfold storeProgram, seqM, sys_write, sys_sync, link_program, sys_dirsync, sys.
  rewrite F1, F2, F3, NN, F4. cbn [orb wdir set_file]. rewrite CU. cbn [fst snd].
  split; [reflexivity|]. split; [cbn [wdir set_dir wset wsync cur]; unfold entry; rewrite String.eqb_refl; reflexivity|].
  cbn [wfile set_dir set_file]. change (cur (wsync ?x)) with (cur x). unfold load_program.
  set (mb := manifest_bytes programFileTag marsh).
  assert (LB : (8 <= length mb)%nat) by (unfold mb, manifest_bytes; rewrite !app_length, !length_le; lia).
  set (g := cur (wset (bytes_at progManifestOffset mb) (wfile w))).
  assert (R : read_at progManifestOffset 8 g = firstn 8 mb).
  { assert (E : forall k, (k <= length mb)%nat -> read_at progManifestOffset k g = firstn k mb).
    { intros k Hk. pose proof (read_written progManifestOffset mb (length mb) (wfile w) ltac:(lia)) as RW.
      rewrite Nat.sub_diag in RW. fold g in RW.
      change (read_at (progManifestOffset + Z.of_nat (length mb)) 0 g) with (@nil Z) in RW. rewrite app_nil_r in RW.
      replace (length mb) with (k + (length mb - k))%nat in RW by lia. rewrite read_at_app in RW.
      rewrite <- RW at 1. rewrite firstn_app_exact by (rewrite length_read_at; reflexivity). reflexivity. }
    apply E, LB. }
  assert (RR : read_at progManifestOffset ManifestMaxSize g = firstn 8 mb ++ read_at (progManifestOffset + 8) (ManifestMaxSize - 8) g).
  { change ManifestMaxSize with (8 + (ManifestMaxSize - 8))%nat at 1. rewrite read_at_app, R. reflexivity. }
  rewrite RR.
  assert (H8 : firstn 8 mb = le 4 programFileTag ++ le 4 (u32 (manifestHeaderSize + len marsh))) by reflexivity.
  rewrite H8. unfold manifest_payload. rewrite <- !app_assoc.
  rewrite firstn_app_exact by (rewrite length_le; reflexivity).
  rewrite unle_le. change (256 ^ Z.of_nat 4) with (2 ^ 32).
  change (programFileTag mod 2 ^ 32 =? programFileTag) with true. cbn [negb].
  rewrite skipn_app_exact by (rewrite length_le; reflexivity).
  rewrite firstn_app_exact by (rewrite length_le; reflexivity).
  rewrite unle_le. change (256 ^ Z.of_nat 4) with (2 ^ 32). unfold manifestHeaderSize.
  rewrite u32_id by lia. rewrite Z.mod_small by lia.
  replace ((8 + len marsh <? 8) || (8 + len marsh >? Z.of_nat ManifestMaxSize)) with true; [reflexivity|].
  unfold ManifestMaxSize. symmetry. apply orb_true_iff. right. lia.
Qed.
Print Assumptions oversized_program_refuted.

(* The encoding of a valid manifest always fits. *)
Theorem instance_manifest_fits : forall m, man_valid m -> len (manifest_bytes instanceFileTag (enc_inst m)) <= 4096.
Proof.
  intros m V. apply valid_ok in V as [OK FB]. pose proof (enc_inst_len m OK FB) as L.
  unfold manifest_bytes, len. rewrite !app_length, !length_le. lia.
Qed.
Print Assumptions instance_manifest_fits.
Theorem instance_manifest_roundtrip : forall m, man_valid m -> dec_inst (enc_inst m) = Ok m.
Proof. intros m V. apply valid_ok in V as [OK FB]. apply dec_inst_rt; assumption. Qed.
Print Assumptions instance_manifest_roundtrip.
