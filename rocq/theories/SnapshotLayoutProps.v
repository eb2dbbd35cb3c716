(* SnapshotLayoutProps.v: C25, C64. *)
From Verif Require Import SnapshotLayoutSpec SnapshotSpec BaseLemmas SnapshotLayout SnapshotLayoutProofs.

(* C25: take any program whose manifest describes its module (the way a manifest of an
   uploaded or stored program does), which has a table and an export section, and any
   instance state within the module format's limits.  The snapshot is made; its module is
   exactly the announced number of bytes; every range of its manifest delimits exactly its
   section; the type, import, function, table, export, element, code and trailing custom
   sections are the same bytes in the same order; there is no start section; the export
   section is wrapped if and only if the instance is suspended or final; and the memory,
   data, global, snapshot, buffer and stack sections denote the instance's state.  The
   object map follows the module at the next multiple of eight. *)
Theorem snapshot_layout : forall prog i bs suspended p objmap cells s,
  describes (man prog) p -> complete (man prog) -> holds (pfile prog) p objmap -> len objmap = ObjectMapSize (man prog) ->
  table_ p <> [] -> export_ p <> [] -> representable prog (export_ p) i bs ->
  globals_are i (length (GlobalTypes (man prog))) cells -> stack_of (pmap prog) i suspended s ->
  exists prog' q, Snapshot prog i bs suspended = Ok prog' /\
    module_of prog' = flat q /\ ModuleSize (man prog') = len (flat q) /\
    describes (man prog') q /\ holds (pfile prog') q objmap /\
    same_program p q /\ start_ q = [] /\ wrapping p q (suspended || ifinal i) /\
    memory_denotes (memory_ q) (len (imemory i)) (MemorySizeLimit (man prog)) /\
    data_denotes (data_ q) (imemory i) /\
    globals_denote (global_ q) (GlobalTypes (man prog)) cells /\
    snapshot_denotes (snapshot_ q) (isnap i) /\
    buffers_denote (buffer_ q) bs /\
    stack_denotes (stack_ q) s.
Proof.
  intros prog i bs su p om cells s H1 H2 H3 H4 H5 H6 H7 H8 H9.
  destruct (layout_main prog i bs su p om cells s H1 H2 H3 H4 H5 H6 H7 H8 H9) as (prog' & q & E & D & F & _ & R).
  exists prog', q. split; [exact E|]. split; [eapply module_of_flat; eauto|]. split; [apply D|]. tauto.
Qed.
Print Assumptions snapshot_layout.

(* The rest of the manifest: what is needed for mapping the new program into a process. *)
Theorem snapshot_manifest_fields : forall prog i bs suspended prog',
  Snapshot prog i bs suspended = Ok prog' ->
  let real := (suspended || ifinal i) && negb (len (istack i) =? 0) in
  (* the stack is usable only with the code at the address where it was made *)
  TextAddr (man prog') = (if real then iTextAddr i else 0) /\
  MemorySize (man prog') = len (imemory i) /\ MemoryDataSize (man prog') = len (imemory i) /\
  MemorySizeLimit (man prog') = MemorySizeLimit (man prog) /\ GlobalTypes (man prog') = GlobalTypes (man prog) /\
  pmemory prog' = imemory i /\ pglobals prog' = iglobals i /\ ptext prog' = ptext prog /\
  (real = true -> pstack prog' = istack i /\ StackUsage (man prog') = len (istack i)) /\
  (* the header of the buffer section is what precedes the buffers' contents *)
  (exists header size, makeBufferSectionHeader bs = Ok (header, size) /\ BufferSectionHeaderLength (man prog') = len header /\
     GetLength (BufferSection (man prog')) = size).
Proof.
  intros prog i bs su prog' H. unfold Snapshot in H. cbv zeta in H.
  repeat (match type of H with
    | (if ?c then Panic else _) = _ => destruct c; [discriminate H|]
    | bind ?x _ = Ok _ => let E := fresh "E" in destruct x eqn:E; cbn [bind] in H; try discriminate H
    | (let '(_, _) := ?x in _) = _ => let E := fresh "E" in destruct x eqn:E
    | match ?x with (_, _) => _ end = _ => destruct x eqn:?
    end).
  match type of H with Ok ?r = _ => assert (X : r = prog') by congruence end. subst prog'. cbn [man pmemory pglobals ptext pstack TextAddr MemorySize MemoryDataSize MemorySizeLimit GlobalTypes StackUsage BufferSectionHeaderLength BufferSection GetLength Length].
  repeat (split; [reflexivity|]). split.
  - intros R. rewrite R. split; [reflexivity|]. apply andb_true_iff in R as [-> ->]. reflexivity.
  - do 2 eexists. split; [reflexivity|]. split; reflexivity.
Qed.
Print Assumptions snapshot_manifest_fields.

(* The range of a section that is present cuts exactly its bytes out of the module. *)
Theorem describes_cuts : forall m p i k r, describes m p -> In (i, k) section_index ->
  nth i (Sections m) None = Some r -> nth k (pieces p) [] <> [] ->
  firstn (Z.to_nat (Length r)) (skipn (Z.to_nat (Offset r)) (flat p)) = nth k (pieces p) [].
Proof.
  intros m p i k r (_ & _ & D & _) I E NE. specialize (D i k I). rewrite E in D. destruct D as [D1 D2]. specialize (D2 NE).
  rewrite D1, D2. unfold len. rewrite !Nat2Z.id.
  assert (Hk : (k < length (pieces p))%nat).
  { cbn in I. cbn. repeat (destruct I as [I | I]; [inversion I; lia|]). destruct I. }
  unfold flat. assert (C : concat (pieces p) = concat (firstn k (pieces p)) ++ concat (skipn k (pieces p))) by (rewrite <- concat_app, firstn_skipn; reflexivity).
  rewrite C, skipn_app, skipn_all, Nat.sub_diag. cbn [skipn app].
  destruct (skipn k (pieces p)) as [|x t] eqn:S.
  - assert (length (skipn k (pieces p)) = 0%nat) by now rewrite S. rewrite skipn_length in H. lia.
  - assert (X : nth k (pieces p) [] = x).
    { rewrite <- (firstn_skipn k (pieces p)), S. rewrite app_nth2; rewrite firstn_length; [|lia].
      replace (k - Nat.min k (length (pieces p)))%nat with 0%nat by lia. reflexivity. }
    rewrite X. cbn [concat]. rewrite firstn_app, firstn_all, Nat.sub_diag. cbn. apply app_nil_r.
Qed.
Print Assumptions describes_cuts.

(* A history of snapshots: each is taken of an instance of the previous snapshot's program,
   loaded from storage. *)
Inductive chain : program -> list (instance * buffers * bool) -> program -> Prop :=
| chain_nil p : chain p [] p
| chain_cons p i bs s p1 l p2 :
    Snapshot p i bs s = Ok p1 -> chain (reloaded p1) l p2 -> chain p ((i, bs, s) :: l) p2.

Definition step_ok (prog : program) (exports : bytes) (x : instance * buffers * bool) : Prop :=
  let '(i, bs, suspended) := x in
  representable prog exports i bs /\
  (exists cells, globals_are i (length (GlobalTypes (man prog))) cells) /\
  (exists s, stack_of (pmap prog) i suspended s).

(* C25: for every such history of any length, every snapshot is made, and the module at the
   end still contains the original program's sections, unchanged and in order. *)
Theorem snapshot_chain : forall l prog p objmap,
  describes (man prog) p -> complete (man prog) -> holds (pfile prog) p objmap -> len objmap = ObjectMapSize (man prog) ->
  table_ p <> [] -> export_ p <> [] -> Forall (step_ok prog (export_ p)) l ->
  exists prog' q, chain prog l prog' /\ describes (man prog') q /\ complete (man prog') /\
    module_of prog' = flat q /\ holds (pfile prog') q objmap /\ same_program p q.
Proof.
  induction l as [|[[i bs] s] l IH]; intros prog p om H1 H2 H3 H4 H5 H6 H7.
  - exists prog, p. split; [constructor|]. repeat (split; [assumption|]). split; [eapply module_of_flat; eauto|].
    split; [exact H3|]. unfold same_program. repeat split.
  - pose proof (Forall_inv H7) as (R & (cells & G) & (st & S)). pose proof (Forall_inv_tail H7) as F.
    destruct (layout_main prog i bs s p om cells st H1 H2 H3 H4 H5 H6 R G S) as (prog' & q & E & D & HF & OM & SP & _ & _ & _ & _ & _ & _ & _ & _ & GT & ML & PM & _).
    destruct (IH (reloaded prog') q om) as (prog'' & q' & C & D' & C' & M & F' & SP').
    + apply reload_describes. exact D.
    + apply reload_complete.
    + exact HF.
    + cbn. congruence.
    + destruct SP as (_ & _ & _ & _ & T & _). congruence.
    + destruct SP as (_ & _ & _ & _ & _ & T & _). congruence.
    + assert (EX : export_ q = export_ p) by (destruct SP as (_ & _ & _ & _ & _ & T & _); exact T).
      rewrite EX. eapply Forall_impl; [|exact F]. intros [[i2 b2] s2]. unfold step_ok, representable. cbn [reloaded man reload GlobalTypes MemorySizeLimit pmap].
      rewrite GT, ML, PM. tauto.
    + exists prog'', q'. split; [econstructor; eauto|]. repeat (split; [assumption|]).
      unfold same_program in *. decompose [and] SP. decompose [and] SP'. repeat split; congruence.
Qed.
Print Assumptions snapshot_chain.

(* ------------------------------------------------------------------ *)
(* C64: which programs and instances the operation does not serve.      *)

(* A module without a table section, however described, cannot be snapshotted: the
   function crashes (nil pointer dereference). *)
Theorem snapshot_without_table_refuted : forall prog i bs suspended p r,
  describes (man prog) p -> complete (man prog) -> table_ p = [] -> Snapshot prog i bs suspended <> Ok r.
Proof.
  intros prog i bs su p r (_ & L & D & _) C T. apply no_table_fails.
  rewrite (length_at_located _ p sTable 4 C L ltac:(cbn; auto 20) (D sTable 4%nat ltac:(cbn; auto 20))). cbn. now rewrite T.
Qed.
Print Assumptions snapshot_without_table_refuted.

(* Nor can a module without an export section. *)
Theorem snapshot_without_exports_refuted : forall prog i bs suspended p r,
  describes (man prog) p -> complete (man prog) -> export_ p = [] -> Snapshot prog i bs suspended <> Ok r.
Proof.
  intros prog i bs su p r (_ & L & D & _) C T. apply no_export_fails.
  rewrite (length_at_located _ p sExport 9 C L ltac:(cbn; auto 20) (D sExport 9%nat ltac:(cbn; auto 20))). cbn. now rewrite T.
Qed.
Print Assumptions snapshot_without_exports_refuted.

(* The program object returned by a snapshot cannot itself be snapshotted (whatever the
   instance) until it has been stored and loaded again: its manifest has no start section
   entry, which the function dereferences. *)
Theorem snapshot_of_snapshot_refuted : forall prog i bs suspended p objmap cells s i2 bs2 suspended2 r,
  describes (man prog) p -> complete (man prog) -> holds (pfile prog) p objmap -> len objmap = ObjectMapSize (man prog) ->
  table_ p <> [] -> export_ p <> [] -> representable prog (export_ p) i bs ->
  globals_are i (length (GlobalTypes (man prog))) cells -> stack_of (pmap prog) i suspended s ->
  exists prog', Snapshot prog i bs suspended = Ok prog' /\ Snapshot prog' i2 bs2 suspended2 <> Ok r.
Proof.
  intros prog i bs su p om cells s i2 bs2 su2 r H1 H2 H3 H4 H5 H6 H7 H8 H9.
  destruct (layout_main prog i bs su p om cells s H1 H2 H3 H4 H5 H6 H7 H8 H9) as (prog' & q & E & _ & _ & _ & _ & _ & _ & _ & _ & _ & _ & _ & _ & _ & _ & _ & _ & _ & _ & _ & _ & N & _).
  exists prog'. split; [exact E|]. apply no_start_fails. exact N.
Qed.
Print Assumptions snapshot_of_snapshot_refuted.

(* A suspended instance which has not run: the new program claims 24 bytes of stack, but its
   stack area holds only zeros, not the synthesized stack that is written to the module. *)
Theorem snapshot_init_stack_refuted : forall prog i bs p objmap cells,
  describes (man prog) p -> complete (man prog) -> holds (pfile prog) p objmap -> len objmap = ObjectMapSize (man prog) ->
  table_ p <> [] -> export_ p <> [] -> representable prog (export_ p) i bs ->
  globals_are i (length (GlobalTypes (man prog))) cells -> istack i = [] ->
  exists prog' q, Snapshot prog i bs true = Ok prog' /\ describes (man prog') q /\
    StackUsage (man prog') = 24 /\ pstack prog' = repeat 0 4096 /\
    is_custom_section (str "gate.stack") (putInitStack (istart i) (ientry i)) (stack_ q) /\
    exists b, In b (putInitStack (istart i) (ientry i)) /\ b <> 0.
Proof.
  intros prog i bs p om cells H1 H2 H3 H4 H5 H6 H7 H8 N.
  destruct (layout_main prog i bs true p om cells _ H1 H2 H3 H4 H5 H6 H7 H8 (stack_init _ i true eq_refl N))
    as (prog' & q & E & D & _ & _ & _ & _ & _ & _ & _ & _ & _ & _ & ST & _ & _ & _ & _ & _ & _ & _ & U & _ & PS).
  exists prog', q. split; [exact E|]. split; [exact D|].
  assert (UE : usage i true = 24) by (unfold usage; cbn [orb]; rewrite N; reflexivity).
  split; [congruence|]. split; [rewrite PS, UE, N; reflexivity|]. split; [exact ST|].
  exists 16. split; [|discriminate]. unfold putInitStack. apply in_or_app. left. vm_compute. auto 10.
Qed.
Print Assumptions snapshot_init_stack_refuted.

(* ------------------------------------------------------------------ *)
(* Non-trivial cases.                                                   *)

(* A module with type, function, table, memory, export, start, element, code, data and a
   trailing custom section. *)
Definition ex_parts : parts :=
  {| header := [0; 97; 115; 109; 1; 0; 0; 0]; type_ := [1; 4; 1; 96; 0; 0]; import_ := []; function_ := [3; 2; 1; 0];
     table_ := [4; 4; 1; 112; 0; 1]; memory_ := [5; 3; 1; 0; 1]; global_ := [6; 6; 1; 127; 1; 65; 7; 11]; snapshot_ := [];
     wrapframe := []; export_ := [7; 5; 1; 1; 102; 0; 0]; start_ := [8; 1; 0]; element_ := [9; 7; 1; 0; 65; 0; 11; 1; 0];
     code_ := [10; 4; 1; 2; 0; 11]; buffer_ := []; stack_ := []; data_ := [11; 1; 0]; custom := [0; 3; 1; 120; 9] |}.

Definition ex_man : pman :=
  {| Sections := [Some (Range 0 0); Some (Range 8 6); Some (Range 0 0); Some (Range 14 4); Some (Range 18 6); Some (Range 24 5);
       Some (Range 29 8); Some (Range 37 7); Some (Range 44 3); Some (Range 47 9); Some (Range 56 6); Some (Range 62 3)];
     SnapshotSection := Some (Range 0 0); ExportSectionWrap := None; BufferSection := Some (Range 0 0); BufferSectionHeaderLength := 0;
     StackSection := Some (Range 0 0); ModuleSize := 70; GlobalTypes := [{| gtype := I32; gmutable := true |}]; MemorySizeLimit := -1;
     MemorySize := 0; MemoryDataSize := 0; StackUsage := 0; TextAddr := 0; ObjectMapSize := 4 |}.

Definition ex_prog : program :=
  {| man := ex_man; pmap := Code [] [] [] []; pfile := flat ex_parts ++ [0; 0] ++ [1; 2; 3; 4]; ptext := []; pstack := []; pglobals := []; pmemory := [] |}.

Definition ex_inst : instance :=
  {| ifinal := false; istack := []; iTextAddr := 0; istart := None; ientry := Some 0; iglobals := repeat 9 16 ++ le 8 300;
     imemory := [5; 6; 7]; isnap := {| Flags := 1; Trap := 0; Result := 0; MonotonicTime := 77; Breakpoints := [5] |} |}.

Definition ex_bufs : buffers := {| Input := [1; 2]; Output := []; Services := [{| sname := [97]; sbuffer := [3] |}] |}.

Lemma ex_describes : describes (man ex_prog) ex_parts.
Proof.
  split; [reflexivity|]. split; [reflexivity|]. split; [|repeat split; try reflexivity].
  intros i k I. cbn in I. repeat destruct I as [I | I]; try contradiction; apply pair_equal_spec in I as [<- <-]; cbn; split; try reflexivity; intros; try reflexivity.
  all: intros; match goal with H : _ <> _ |- _ => destruct (H eq_refl) end.
Qed.

Lemma ex_representable : representable ex_prog (export_ ex_parts) ex_inst ex_bufs.
Proof.
  assert (A : forall a b : Z, (a <? b) = true -> a < b) by (intros; now apply Z.ltb_lt).
  assert (B : forall a b : Z, (a <=? b) = true -> a <= b) by (intros; now apply Z.leb_le).
  assert (C : forall l, forallb (fun b => (0 <=? b) && (b <? 256)) l = true -> is_bytes l).
  { intros l H. apply Forall_forall. intros x Hx. rewrite forallb_forall in H. specialize (H x Hx).
    apply andb_true_iff in H as [H1 H2]. split; [now apply Z.leb_le|now apply Z.ltb_lt]. }
  unfold representable, snap_ok, buffers_ok. repeat match goal with |- _ /\ _ => split end;
    try (apply A; vm_compute; reflexivity); try (apply B; vm_compute; reflexivity); try (apply C; vm_compute; reflexivity).
  - apply Forall_cons; [|apply Forall_nil]. split; [apply B|apply A]; vm_compute; reflexivity.
  - apply Forall_cons; [|apply Forall_nil]. repeat match goal with |- _ /\ _ => split end;
    try (apply A; vm_compute; reflexivity); try (apply B; vm_compute; reflexivity); try (apply C; vm_compute; reflexivity).
Qed.

Lemma ex_globals : globals_are ex_inst (length (GlobalTypes (man ex_prog))) [300].
Proof. split; [reflexivity|]. split; [apply Forall_cons; [vm_compute; split; congruence|apply Forall_nil]|]. exists (repeat 9 16). reflexivity. Qed.

(* The hypotheses of the theorems hold for it, running (export section plain) and suspended
   before having run (export section wrapped). *)
Example snapshot_layout_ex :
  describes (man ex_prog) ex_parts /\ complete (man ex_prog) /\ holds (pfile ex_prog) ex_parts [1; 2; 3; 4] /\
  table_ ex_parts <> [] /\ export_ ex_parts <> [] /\ representable ex_prog (export_ ex_parts) ex_inst ex_bufs /\
  globals_are ex_inst (length (GlobalTypes (man ex_prog))) [300] /\ stack_of (pmap ex_prog) ex_inst false None /\
  exists r, Snapshot ex_prog ex_inst ex_bufs false = Ok r /\ len (module_of r) = 122 /\
    module_of r = [0; 97; 115; 109; 1; 0; 0; 0] ++ [1; 4; 1; 96; 0; 0] ++ [3; 2; 1; 0] ++ [4; 4; 1; 112; 0; 1] ++ [5; 3; 1; 0; 0] ++
      [6; 7; 1; 127; 1; 65; 172; 2; 11] ++ [0; 21; 13] ++ str "gate.snapshot" ++ [0; 1; 0; 0; 77; 1; 5] ++ [7; 5; 1; 1; 102; 0; 0] ++
      [9; 7; 1; 0; 65; 0; 11; 1; 0] ++ [10; 4; 1; 2; 0; 11] ++ [0; 21; 11] ++ str "gate.buffer" ++ [2; 0; 1; 1; 97; 1; 1; 2; 3] ++
      [11; 9; 1; 0; 65; 0; 11; 3; 5; 6; 7] ++ [0; 3; 1; 120; 9].
Proof.
  split; [exact ex_describes|]. split; [intros r I; cbn in I; intuition congruence|].
  split; [exists [0; 0]; repeat split; vm_compute; reflexivity|]. split; [discriminate|]. split; [discriminate|].
  split; [exact ex_representable|]. split; [exact ex_globals|]. split; [apply stack_none; auto|].
  eexists. split; [vm_compute; reflexivity|]. split; vm_compute; reflexivity.
Qed.

Example snapshot_wrapped_ex : stack_of (pmap ex_prog) ex_inst true (Some (putInitStack None (Some 0))) /\
  exists r, Snapshot ex_prog ex_inst ex_bufs true = Ok r /\ ExportSectionWrap (man r) = Some (Range 61 21) /\
    firstn 21 (skipn 61 (module_of r)) = [0; 19; 11] ++ str "gate.export" ++ [7; 5; 1; 1; 102; 0; 0] /\
    exists r2, Snapshot (reloaded r) ex_inst ex_bufs false = Ok r2 /\ len (module_of r2) = 122 /\
      (exists r1, Snapshot ex_prog ex_inst ex_bufs false = Ok r1 /\ module_of r2 = module_of r1) /\
      Snapshot r ex_inst ex_bufs false = Panic.
Proof.
  split; [apply stack_init; reflexivity|]. eexists. split; [vm_compute; reflexivity|]. split; [vm_compute; reflexivity|].
  split; [vm_compute; reflexivity|]. eexists. split; [vm_compute; reflexivity|]. split; [vm_compute; reflexivity|].
  split; [|vm_compute; reflexivity]. eexists. split; [vm_compute; reflexivity|]. vm_compute. reflexivity.
Qed.

Example snapshot_no_table_ex : exists m p, describes m p /\ complete m /\ table_ p = [] /\ code_ p <> [] /\
  Snapshot {| man := m; pmap := Code [] [] [] []; pfile := flat p ++ repeat 0 8; ptext := []; pstack := []; pglobals := []; pmemory := [] |}
    ex_inst ex_bufs false = Panic.
Proof.
  exists {| Sections := [Some (Range 0 0); Some (Range 8 6); Some (Range 0 0); Some (Range 14 4); Some (Range 0 0); Some (Range 0 0);
       Some (Range 0 0); Some (Range 18 7); Some (Range 0 0); Some (Range 0 0); Some (Range 25 6); Some (Range 0 0)];
     SnapshotSection := Some (Range 0 0); ExportSectionWrap := None; BufferSection := Some (Range 0 0); BufferSectionHeaderLength := 0;
     StackSection := Some (Range 0 0); ModuleSize := 31; GlobalTypes := []; MemorySizeLimit := -1;
     MemorySize := 0; MemoryDataSize := 0; StackUsage := 0; TextAddr := 0; ObjectMapSize := 0 |}.
  exists {| header := [0; 97; 115; 109; 1; 0; 0; 0]; type_ := [1; 4; 1; 96; 0; 0]; import_ := []; function_ := [3; 2; 1; 0];
     table_ := []; memory_ := []; global_ := []; snapshot_ := []; wrapframe := []; export_ := [7; 5; 1; 1; 102; 0; 0]; start_ := []; element_ := [];
     code_ := [10; 4; 1; 2; 0; 11]; buffer_ := []; stack_ := []; data_ := []; custom := [] |}.
  split; [|split; [intros r I; cbn in I; intuition congruence|split; [reflexivity|split; [discriminate|vm_compute; reflexivity]]]].
  split; [reflexivity|]. split; [reflexivity|]. split; [|repeat split; try reflexivity].
  intros i k I. cbn in I. repeat destruct I as [I | I]; try contradiction; apply pair_equal_spec in I as [<- <-]; cbn; split; try reflexivity; intros; try reflexivity.
  all: intros; match goal with H : _ <> _ |- _ => destruct (H eq_refl) end.
Qed.

(* C64: FinishProgram (image/build.go:280-302) does not record the wrapper of an uploaded
   module's export section.  Take the module of a suspended snapshot with the manifest that
   describes it in every other respect: a snapshot of it (as another instance would make)
   succeeds, and where its manifest says that the code section is, the module has something
   else. *)
Theorem snapshot_of_wrapped_upload_refuted :
  let forget (p : program) := {| man := {| Sections := Sections (man p); SnapshotSection := SnapshotSection (man p);
      ExportSectionWrap := None; BufferSection := BufferSection (man p); BufferSectionHeaderLength := BufferSectionHeaderLength (man p);
      StackSection := StackSection (man p); ModuleSize := ModuleSize (man p); GlobalTypes := GlobalTypes (man p);
      MemorySizeLimit := MemorySizeLimit (man p); MemorySize := MemorySize (man p); MemoryDataSize := MemoryDataSize (man p);
      StackUsage := StackUsage (man p); TextAddr := TextAddr (man p); ObjectMapSize := ObjectMapSize (man p) |};
      pmap := pmap p; pfile := pfile p; ptext := ptext p; pstack := pstack p; pglobals := pglobals p; pmemory := pmemory p |} in
  exists r r2 range, Snapshot ex_prog ex_inst ex_bufs true = Ok r /\
    Snapshot (forget (reloaded r)) ex_inst ex_bufs false = Ok r2 /\
    nth sCode (Sections (man r2)) None = Some range /\ Length range = len (code_ ex_parts) /\
    firstn (Z.to_nat (Length range)) (skipn (Z.to_nat (Offset range)) (module_of r2)) <> code_ ex_parts.
Proof.
  cbv zeta. do 3 eexists. split; [vm_compute; reflexivity|]. split; [vm_compute; reflexivity|].
  split; [vm_compute; reflexivity|]. split; [vm_compute; reflexivity|]. vm_compute. congruence.
Qed.
Print Assumptions snapshot_of_wrapped_upload_refuted.
