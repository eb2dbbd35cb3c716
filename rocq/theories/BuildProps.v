(* BuildProps.v: properties C63 and C65. *)
From Verif Require Import Build BuildSpec BuildProofs.

(* C63: the upload accepts a module exactly when its snapshot sections follow the grammar of
   BuildSpec.v, whatever sections it consists of ... *)
Theorem upload_accepts_exactly p l : (exists b, buildProgram p l = Ok b) <-> acceptable p l.
Proof. split; [intros [b H]; now apply build_fwd in H|apply build_bwd]. Qed.

(* ... and the text is then finished exactly once: with the imported stack's size if there
   is a gate.stack section, and otherwise with no stack. *)
Theorem upload_finishes_text_once p l b : buildProgram p l = Ok b -> finished b = 1%nat.
Proof. intros H. now apply build_fwd in H. Qed.

(* A rejected module never crashes the loader. *)
Theorem upload_never_panics p l : buildProgram p l <> Panic.
Proof. exact (build_no_panic p l). Qed.

(* C65, the part that holds: if there is a gate.snapshot section before the code section,
   all its breakpoints are at instructions. *)
Theorem early_breakpoints_exist_partial p l a r bps b :
  l = a ++ Custom (CSnapshot true bps) :: r -> In 10 (ids r) -> buildProgram p l = Ok b ->
  Forall (fun o => o < 2 ^ 32 /\ instruction p o = true) bps.
Proof. exact (early_breakpoints p l a r bps b). Qed.

(* C65, refuted: a gate.snapshot section between the code section and the data section is
   also accepted, and its breakpoints are neither set nor checked. *)
Theorem breakpoints_exist_refuted : exists p l b bps o,
  buildProgram p l = Ok b /\ snapshot b = Some bps /\ In o bps /\ instruction p o = false /\ breakpoints b = [].
Proof.
  exists {| stackSize := 65536; entryName := false; entryFound := Some false; instruction := fun o => o =? 4 |},
    [Std 1 5; Std 10 20; Custom (CSnapshot true [7]); Custom (CStack 100 true); Std 11 3].
  eexists _, [7], 7. split; [vm_compute; reflexivity|]. repeat split. left. reflexivity.
Qed.

(* ---- concrete cases ---- *)
Definition ex_p := {| stackSize := 65536; entryName := false; entryFound := Some false; instruction := fun o => o =? 4 |}.

(* a snapshot as image.Snapshot writes it *)
Definition ex_snapshot := [Std 1 5; Std 3 2; Custom (CSnapshot true [4]); Custom (CExport 9); Std 7 9; Std 10 20;
  Custom COther; Custom (CBuffer true); Custom (CStack 100 true); Std 11 3; Custom COther].

Example ex_accepted : exists b, buildProgram ex_p ex_snapshot = Ok b /\ finished b = 1%nat /\ bufferMapped b = true /\ stackMapped b = true.
Proof. eexists. split; [vm_compute; reflexivity|]. repeat split. Qed.

Example ex_acceptable : acceptable ex_p ex_snapshot.
Proof. apply upload_accepts_exactly. eexists. vm_compute. reflexivity. Qed.

(* stack before buffer; buffer twice; buffer without snapshot; snapshot twice; stack too big; export section
   outside its wrapper; unknown breakpoint; data sections after data *)
Example ex_rejected : Forall (fun l => buildProgram ex_p l = Err)
  [ [Custom (CSnapshot true []); Std 10 20; Custom (CStack 100 true); Custom (CBuffer true)];
    [Custom (CSnapshot true []); Std 10 20; Custom (CBuffer true); Custom (CBuffer true)];
    [Std 10 20; Custom (CBuffer true)];
    [Custom (CSnapshot true []); Custom (CSnapshot true []); Std 10 20];
    [Custom (CSnapshot true []); Std 10 20; Custom (CStack 65536 true)];
    [Custom (CSnapshot true []); Custom (CExport 8); Std 7 9; Std 10 20];
    [Custom (CExport 9); Std 7 9; Std 10 20];
    [Custom (CSnapshot true [5]); Std 10 20];
    [Custom (CSnapshot true [4294967296]); Std 10 20];
    [Custom (CSnapshot true []); Std 10 20; Std 11 3; Custom (CStack 100 true)];
    [Custom (CSnapshot true []); Custom (CBuffer true); Std 10 20] ].
Proof. repeat (constructor; [vm_compute; reflexivity|]). constructor. Qed.

Example ex_early : Forall (fun o => o < 2 ^ 32 /\ instruction ex_p o = true) [4].
Proof. destruct ex_accepted as (b & H & _). refine (early_breakpoints_exist_partial ex_p ex_snapshot [Std 1 5; Std 3 2] _ [4] b eq_refl _ H). cbn. auto. Qed.

Print Assumptions upload_accepts_exactly.
Print Assumptions upload_finishes_text_once.
Print Assumptions upload_never_panics.
Print Assumptions early_breakpoints_exist_partial.
Print Assumptions breakpoints_exist_refuted.
