(* StackProps.v: property C26. *)
From Verif Require Import BaseLemmas Stack StackSpec StackProofs.

(* A module: the init routine has call site 0 (calls the start function; the entry function's
   address is on the stack) and 1 (calls the entry function); function 0 (no parameters) has a
   call site with 16 bytes of variables, function 1 (two parameters) one with 24 bytes. *)
Definition ex_code : code :=
  Code [(16, 8); (32, 0); (100, 24); (200, 32)] [64; 160] [FType 0 true; FType 2 false] [0; 1]%nat.
Example ex_code_wf : wf_code ex_code.
Proof.
  constructor; cbn; try (repeat constructor; cbn; lia); try lia;
    intros [|[|[|i]]] [|[|[|[|j]]]] H; cbn in *; lia.
Qed.
(* Two frames: function 1 (called by function 0) and function 0 (called by the init routine at
   site 0, the start function); the entry function is function 0. *)
Definition ex_stack : callstack :=
  CallStack [Frame 3 (repeat 7 24); Frame 2 (repeat 9 16)] 0 (BEntry (Some 0%nat)).
Example ex_stack_valid : valid ex_code ex_stack.
Proof.
  split; [|split; [cbn; lia|split]].
  - apply VFrame with (f := 1%nat) (sig := FType 2 false); cbn; try lia; try reflexivity.
    + repeat split; cbn; try lia.
    + exists 1%nat. split; reflexivity.
    + repeat constructor; cbn; lia.
    + apply VFrame with (f := 0%nat) (sig := FType 0 true); cbn; try lia; try reflexivity.
      * repeat split; cbn; try lia. intros [|[|g]] Hg; cbn; lia.
      * exists 0%nat. split; reflexivity.
      * repeat constructor; cbn; lia.
      * constructor.
  - intros [|[|f]] H; cbn in *; lia.
  - cbn. repeat split; try lia. exists (FType 0 true). split; auto. exists 0%nat. split; reflexivity.
Qed.

(* C26: every valid call stack of a suspended instance, wherever its text was mapped, is
   exported as its portable form: 32-bit call site index and stack offset in place of each
   return address, function index in place of the entry function's address, and all the
   variables unchanged. *)
Theorem stack_export : forall c text s, wf_code c -> valid c s ->
  exportStack c text (native c text s) = Ok (portable c s).
Proof. exact export_native. Qed.
Print Assumptions stack_export.
Example stack_export_ex : exists p, exportStack ex_code (5 * 2 ^ 40) (native ex_code (5 * 2 ^ 40) ex_stack) = Ok p /\ len p = 72.
Proof. eexists. split; vm_compute; reflexivity. Qed.

(* C26: importing it, to any other address, restores the same stack. *)
Theorem stack_import : forall c text s, wf_code c -> valid c s ->
  importStack c text (portable c s) = Ok (native c text s).
Proof. exact import_portable. Qed.
Print Assumptions stack_import.
Theorem stack_roundtrip : forall c text text' s, wf_code c -> valid c s ->
  exists p, exportStack c text (native c text s) = Ok p /\ importStack c text' p = Ok (native c text' s).
Proof. intros c text text' s W V. exists (portable c s). split; [now apply export_native|now apply import_portable]. Qed.
Print Assumptions stack_roundtrip.
Example stack_roundtrip_ex : native ex_code (3 * 2 ^ 40) ex_stack <> native ex_code (5 * 2 ^ 40) ex_stack.
Proof. vm_compute. discriminate. Qed.

(* C26: whatever bytes an uploaded stack section has, if they are accepted then the result is
   the native form of some valid stack of this module, of the same size: every return address
   is that of a call site, every frame has the size its call site requires and room for the
   arguments of the function called, the outermost is a call of a parameterless function by
   the init routine, and the entry function has an entry function type. *)
Theorem stack_import_sound : forall c text buf r, wf_code c -> is_bytes buf ->
  importStack c text buf = Ok r -> exists s, valid c s /\ r = native c text s /\ len buf = len r.
Proof. exact import_sound. Qed.
Print Assumptions stack_import_sound.
Example stack_import_sound_ex : exists r, importStack ex_code (5 * 2 ^ 40) (portable ex_code ex_stack) = Ok r.
Proof. eexists. vm_compute. reflexivity. Qed.
(* a stack without room for the arguments is rejected *)
Example stack_import_reject_ex : importStack ex_code (5 * 2 ^ 40)
  (portable ex_code (CallStack [Frame 3 (repeat 7 24)] 0 (BEntry None))) = Err.
Proof. vm_compute. reflexivity. Qed.

(* C26, full statement: importing arbitrary bytes never crashes the server.  False: a stack
   section of 8 bytes that names a call site in a function, or a call site of the init routine
   that has the entry function below it. *)
Theorem stack_import_crash_refuted : exists c buf, wf_code c /\ is_bytes buf /\ len buf = 8 /\
  forall text, importStack c text buf = Panic.
Proof.
  exists ex_code, (portable_site ex_code 3). split; [exact ex_code_wf|]. split; [repeat constructor; cbn; lia|].
  split; [reflexivity|]. intros text. vm_compute. reflexivity.
Qed.
Print Assumptions stack_import_crash_refuted.
Theorem stack_import_entry_crash_refuted : exists c buf, wf_code c /\ is_bytes buf /\ len buf = 8 /\
  forall text, importStack c text buf = Panic.
Proof.
  exists ex_code, (portable_site ex_code 0). split; [exact ex_code_wf|]. split; [repeat constructor; cbn; lia|].
  split; [reflexivity|]. intros text. vm_compute. reflexivity.
Qed.
Print Assumptions stack_import_entry_crash_refuted.
(* Part of it: it crashes on nothing but such stacks, which end before the frame or the entry
   function that the last call site in them requires. *)
Theorem stack_import_crash_partial : forall c text buf, wf_code c -> is_bytes buf ->
  importStack c text buf = Panic -> truncated c buf.
Proof. exact import_crash. Qed.
Print Assumptions stack_import_crash_partial.
Example truncated_ex : truncated ex_code (portable_site ex_code 3).
Proof. exists [], 0%nat, 3%nat, []. cbn. repeat split; try lia. constructor. Qed.

(* The snapshot of an instance that has not been started yet contains an initial stack which
   names the start and entry functions.  No module accepts it back. *)
Theorem stack_init_refuted : forall c text start entry,
  wf_code c -> (0 < length (sites c))%nat -> in_init c (ret_of c 0) = true ->
  (match start with Some i => 0 <= i < 2 ^ 64 | None => True end) ->
  (match entry with Some i => 0 <= i < 2 ^ 64 | None => True end) ->
  importStack c text (putInitStack start entry) = Err.
Proof. intros c text start entry W L I H1 H2. apply init_stack_rejected; auto. apply W. Qed.
Print Assumptions stack_init_refuted.
Example stack_init_ex : importStack ex_code 0 (putInitStack None (Some 0)) = Err.
Proof. apply stack_init_refuted; cbn; auto; try lia. exact ex_code_wf. Qed.
