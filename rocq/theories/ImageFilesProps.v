(* ImageFilesProps.v: C107 and C108. *)
From Verif Require Import ImageFilesSpec ImageFilesProofs.
Local Open Scope Z_scope.

(** ** C107: The program's state survives every way of keeping it *)

(* A built program contains what it was built from; an instance built with it, too *)
Theorem build_contents : forall stackSize s p, fits s -> buildProgram stackSize s = Ok p ->
  programState p = sourceState s /\ programText p = s_text s /\ programModule p = s_module s /\ programSites p = s_sites s /\ programAddrs p = s_addrs s /\ good (AProgram p).
Proof. exact buildProgram_built. Qed.
Print Assumptions build_contents.

Theorem build_instance_contents : forall stackSize s p i, fits s -> 0 <= stackSize <= 2 ^ 31 -> buildBoth stackSize s = Ok (p, i) ->
  (programState p = sourceState s /\ programText p = s_text s /\ programModule p = s_module s /\ programSites p = s_sites s /\ programAddrs p = s_addrs s /\ good (AProgram p)) /\
  instanceState i = sourceState s /\ good (AnInstance i).
Proof. intros stackSize s p i F B E. destruct (buildBoth_built _ _ _ _ F B E) as (A & C & D & _). auto. Qed.
Print Assumptions build_instance_contents.

(* The stack that doesn't fit is refused, everything else is accepted *)
Theorem build_refuses : forall stackSize s,
  (buildProgram stackSize s = Err <-> stackSize < StackUsageOffset + len (s_stack s)) /\
  (buildBoth stackSize s = Err <-> stackSize < StackUsageOffset + len (s_stack s)).
Proof.
  intros stackSize s. unfold buildProgram, buildBoth, stackFits. destruct (stackSize <? StackUsageOffset + len (s_stack s)) eqn:E; cbn [negb]; split; split; intros H; try reflexivity; try discriminate H; lia.
Qed.
Print Assumptions build_refuses.

(* An instance of a program starts from the program's state, whether it's fresh or a snapshot *)
Theorem new_instance_state : forall p n i, good (AProgram p) -> 0 <= n <= 2 ^ 31 -> NewInstance p n = Ok i ->
  instanceState i = programState p /\ good (AnInstance i).
Proof. intros p n i G B E. destruct (new_spec p n i G B E) as (A & C & _). auto. Qed.
Print Assumptions new_instance_state.

(* Images are instantiated, stored, loaded and snapshotted any number of times, in any order: the state is the same *)
Theorem state_survives : forall x y, good x -> history x y -> imageState y = imageState x /\ good y.
Proof.
  intros x y G H. induction H as [x|x y z B H IH]; [auto|]. destruct (becomes_spec x y G B) as [G' E].
  destruct (IH G') as [E' G'']. rewrite E', E. auto.
Qed.
Print Assumptions state_survives.

(* In particular from the source on *)
Theorem built_state_survives : forall stackSize s p y, fits s -> buildProgram stackSize s = Ok p -> history (AProgram p) y ->
  imageState y = sourceState s.
Proof.
  intros stackSize s p y F E H. destruct (build_contents _ _ _ F E) as (A & _ & _ & _ & _ & G).
  destruct (state_survives _ _ G H) as [B _]. rewrite B. exact A.
Qed.
Print Assumptions built_state_survives.

(* A snapshot contains the same code *)
Theorem snapshot_text : forall old i module map, good (AnInstance i) -> GlobalsSize (pm old) = iGlobalsSize (im i) -> len module + len map + 8 <= 2 ^ 33 ->
  iStackUsage (im i) <> 0 -> 0 <= TextSize (pm old) <= 2 ^ 31 ->
  programText (snapshotAreas old i module map true) = programText old /\ programModule (snapshotAreas old i module map true) = module.
Proof. intros old i module map G A B C D. destruct (snapshot_spec old i module map G A B C D) as (_ & _ & E & F). auto. Qed.
Print Assumptions snapshot_text.

(* A module with all parts *)
Definition example_source : source :=
  Source [204; 195; 144] [0; 97; 115; 109; 1] [1; 0; 0; 0; 8; 0; 0; 0] [3; 0; 0; 0] (List.map Z.of_nat (seq 1 24)) 4096 16 65536 (repeat 0 4080 ++ repeat 7 16 ++ [104; 105]).
Lemma example_fits : fits example_source.
Proof. constructor; vm_compute; intuition congruence. Qed.
Definition example_program : program := Program (programManifest example_source) (withState (programFile example_source) progGlobalsOffset example_source).
Lemma example_built : buildProgram 65536 example_source = Ok example_program.
Proof. unfold buildProgram. replace (stackFits 65536 example_source) with true by (vm_compute; reflexivity). reflexivity. Qed.
Lemma example_good : good (AProgram example_program).
Proof. destruct (build_contents _ _ _ example_fits example_built) as (_ & _ & _ & _ & _ & G). exact G. Qed.
Lemma new_ok p n : (alignPage n - StackUsageOffset <? StackUsage (pm p)) = false ->
  exists i, NewInstance p n = Ok i /\ im i = IMan (if StackUsage (pm p) =? 0 then 0 else TextAddr (pm p)) (u32 (alignPage n)) (StackUsage (pm p)) (GlobalsSize (pm p)) (MemorySize (pm p)).
Proof. intros H. unfold NewInstance. rewrite H. eexists. split; [reflexivity|]. reflexivity. Qed.
(* Built, instantiated, stored, loaded, snapshotted and instantiated again with another stack size *)
Example state_survives_example : exists x, history (AProgram example_program) (AnInstance x) /\ iStackSize (im x) = 135168 /\
  firstn 3 (st_stack (instanceState x)) = [1; 2; 3] /\ st_globals (instanceState x) = repeat 7 16 /\ firstn 3 (st_memory (instanceState x)) = [104; 105; 0].
Proof.
  assert (H : exists x, history (AProgram example_program) (AnInstance x) /\ iStackSize (im x) = 135168).
  { destruct (new_ok example_program 65536) as (i & E1 & Ei); [vm_compute; reflexivity|].
    assert (Ei' : im i = IMan 4096 65536 24 16 65536). { rewrite Ei. vm_compute. reflexivity. } clear Ei.
    pose (s := storeLoad i). assert (Es : im s = IMan 4096 65536 24 16 65536) by exact Ei'.
    pose (q := snapshotAreas example_program s [0; 97; 115; 109; 1; 0] [] true).
    assert (Eq : StackUsage (pm q) = 24). { unfold q, snapshotAreas. cbn [pm StackUsage]. rewrite Es. reflexivity. }
    destruct (new_ok q 131073) as (j & E2 & Ej). { rewrite Eq. vm_compute. reflexivity. }
    exists j. split.
    - apply h_more with (y := AnInstance i). { apply b_new with (n := 65536); [lia|exact E1]. }
      apply h_more with (y := AnInstance s). { apply b_store. }
      apply h_more with (y := AProgram q).
      { apply b_snapshot; rewrite ?Es; [vm_compute; reflexivity|vm_compute; discriminate|vm_compute; discriminate|vm_compute; split; discriminate]. }
      apply h_more with (y := AnInstance j). { apply b_new with (n := 131073); [lia|exact E2]. }
      apply h_same.
    - rewrite Ej. vm_compute. reflexivity. }
  destruct H as (x & H & S). exists x. split; [exact H|]. split; [exact S|].
  pose proof (built_state_survives 65536 example_source _ _ example_fits example_built H) as E. cbn [imageState] in E. rewrite E.
  split; [|split]; vm_compute; reflexivity.
Qed.

(** ** C108: The parts of an image file don't overlap, and new instances start with clean runtime variables *)

Theorem program_layout : forall stackSize s p, fits s -> buildProgram stackSize s = Ok p \/ (exists i, buildBoth stackSize s = Ok (p, i)) ->
  progTextOffset + TextSize (pm p) <= progGlobalsOffset - StackUsage (pm p) /\
  progGlobalsOffset + alignPage (GlobalsSize (pm p)) + MemorySize (pm p) <= progModuleOffset /\
  progModuleOffset + align8 (ModuleSize (pm p)) + CallSitesSize (pm p) + FuncAddrsSize (pm p) <= progManifestOffset.
Proof.
  intros stackSize s p F E. assert (U : pm p = programManifest s).
  { destruct E as [E|[i E]]; unfold buildProgram, buildBoth in E; destruct (stackFits stackSize s); try discriminate E.
    - apply ok_inj in E. subst p. reflexivity.
    - apply ok_inj, pair_inj in E. destruct E as [E _]. subst p. reflexivity. }
  pose proof F as [Ft Fs Fg Fm Fd Fo Fa Fr Fp]. pose proof (alignPage_bounds (s_globals s)). pose proof (align8_bounds (len (s_module s))).
  pose proof (len_nonneg (s_text s)). pose proof (len_nonneg (s_stack s)). pose proof (len_nonneg (s_sites s)). pose proof (len_nonneg (s_addrs s)). pose proof (len_nonneg (s_module s)).
  rewrite U. unfold programManifest. cbn [TextAddr TextSize StackUsage GlobalsSize MemorySize MemoryDataSize ModuleSize CallSitesSize FuncAddrsSize].
  rewrite !u32_id by lia. unfold progTextOffset, progGlobalsOffset, progModuleOffset, progManifestOffset. lia.
Qed.
Print Assumptions program_layout.

(* In an instance's file the used stack is above the runtime's variables and signal handling space, and memory (which can
   be as large as it gets) is below the manifest *)
Theorem instance_layout : forall x i, good x -> history x (AnInstance i) ->
  StackVarsSize < StackUsageOffset <= iStackSize (im i) - iStackUsage (im i) /\
  iStackSize (im i) + alignPage (iGlobalsSize (im i)) + iMemorySize (im i) <= instManifestOffset.
Proof.
  intros x i G H. destruct (state_survives _ _ G H) as [_ ((Gu & Gg & Gm & Gs & Gp & Ga) & Gpg & Gst)].
  unfold StackVarsSize, instManifestOffset, StackUsageOffset in *. lia.
Qed.
Print Assumptions instance_layout.

(* The runtime's variables of a new instance are zero: it hasn't been run, there's no state of another one *)
Theorem new_instance_vars : forall x, 0 <= x < StackVarsSize ->
  (forall p n i, good (AProgram p) -> 0 <= n <= 2 ^ 31 -> NewInstance p n = Ok i -> inf i x = 0) /\
  (forall stackSize s p i, fits s -> 0 <= stackSize <= 2 ^ 31 -> buildBoth stackSize s = Ok (p, i) -> inf i x = 0) /\
  (forall i, good (AnInstance i) -> inf (storeLoad i) x = 0).
Proof.
  intros x B. split; [|split].
  - intros p n i G N E. destruct (new_spec p n i G N E) as (_ & _ & V). apply V. exact B.
  - intros stackSize s p i F N E. destruct (buildBoth_built _ _ _ _ F N E) as (_ & _ & _ & V). apply V. unfold StackVarsSize, StackUsageOffset in *. lia.
  - intros i ((Gu & Gg & Gm & Gs & Gp & Ga) & Gpg & Gst). unfold StackVarsSize, StackUsageOffset in *.
    pose proof (alignPage_bounds (iGlobalsSize (im i))). cbn [inf storeLoad]. unfold copyInstance at 1. rewrite !u32_id by lia.
    rewrite copyRange_out by lia. rewrite copyRange_out by lia. reflexivity.
Qed.
Print Assumptions new_instance_vars.

Example new_instance_vars_example : exists i, NewInstance example_program 65536 = Ok i /\ inf i 0 = 0 /\ st_stack (instanceState i) = s_stack example_source.
Proof.
  destruct (new_ok example_program 65536) as (i & E1 & _); [vm_compute; reflexivity|].
  exists i. split; [exact E1|]. split.
  - destruct (new_instance_vars 0) as [A _]; [unfold StackVarsSize; lia|]. apply (A example_program 65536); [exact example_good|lia|exact E1].
  - destruct (new_instance_state example_program 65536 i example_good) as [E _]; [lia|exact E1|]. rewrite E.
    destruct (build_contents _ _ _ example_fits example_built) as [A _]. rewrite A. reflexivity.
Qed.
