(* RuntimeProps.v: properties of the code that runs in every guest process (runtime/loader/x86_64/runtime.S). *)
From Verif Require Import RuntimeSpec RuntimeSched AsmProofs RuntimeTimeProofs RuntimeExitProofs RuntimeFunProofs RuntimeFun2Proofs
  RuntimeIoProofs RuntimeIo2Proofs RuntimeDebugProofs RuntimePollProofs RuntimeSigProofs RuntimeSignalProofs RuntimeCheckProofs RuntimeSuspendProofs.
From Verif Require Limits LimitsProps ExitStatus.
From Coq Require Import Lia ZArith List Bool Sorted.
Import ListNotations.
Local Open Scope Z_scope.

(** * A process *)

(* Memory, stack with variables at 0x10000, text at 0x200000, runtime's code at 0x1ff000 *)
Definition ex_words : list (Z * nat * Z) :=
  [(2097152 - 88, 8%nat, 140000000000000); (2097152 - 80, 8%nat, 5000000000); (2097152 - 72, 4%nat, 2 ^ 32 - 2 ^ 24);
   (2097152 - 64, 8%nat, 1234605616436508552); (2097152 - 40, 8%nat, 16); (2097152 - 32, 8%nat, 2 ^ 33);
   (65536 + 4, 4%nat, 2); (65536 + 8, 8%nat, 7000000000); (65536 + 16, 4%nat, 8);
   (131072 + 16, 4%nat, 100); (131072 + 8, 4%nat, 6)].
Definition ex_mem : Z -> Z := fold_left (fun m w => sto (snd (fst w)) m (fst (fst w)) (snd w)) ex_words (fun _ => 0).
Definition ex_cpu (p : nat) (ax limit : Z) : cpu := Cpu (Regs ax 0 0 limit 131072 0 0 0 0 0 0 0 0 0 0 2097152) None None p (2097152 - 4096) ex_mem.
Lemma ex_mem_bytes a : 0 <= ex_mem a < 256.
Proof. unfold ex_mem, ex_words. cbn [fold_left fst snd]. revert a. repeat (apply sto_range). intros. lia. Qed.
Example a_process : forall p ax limit, 0 <= ax < 2 ^ 64 -> limit = 65536 + 9984 \/ limit = Z.lor (65536 + 9984) suspend_mask ->
  imported (ex_cpu p ax limit) 131072 2097152 65536 /\ memory_apart (ex_cpu p ax limit) 131072 2097152 65536 /\ memory_size ex_mem 65536 = 131072 /\
  v_clock_gettime ex_mem 2097152 <> 2097152 + 16 /\ protected (s_suspend ex_mem 65536) = false.
Proof.
  intros p ax limit Hax Hl.
  split.
  - assert (Rl : 0 <= limit < 2 ^ 64) by (destruct Hl as [-> | ->]; vm_compute; split; congruence).
    constructor; cbn [ex_cpu rg rget mm cbase pc g_rsp g_r15 g_rbx]; try reflexivity.
    + destruct Hl as [-> | ->]; vm_compute; reflexivity.
    + intros r. destruct r; cbn [rget g_rax g_rcx g_rdx g_rbx g_rsp g_rbp g_rsi g_rdi g_r8 g_r9 g_r10 g_r11 g_r12 g_r13 g_r14 g_r15]; try assumption; vm_compute; split; congruence.
    + apply ex_mem_bytes.
    + vm_compute. repeat split; congruence.
    + right. vm_compute. congruence.
    + vm_compute. split; congruence.
    + vm_compute. intros [_ H]. congruence.
  - split; [unfold memory_apart; cbn [ex_cpu mm]; vm_compute; repeat split; try congruence; right; congruence|]. vm_compute. repeat split; congruence.
Qed.

(** * C97: time *)

(* rt_time(clock): the C function is called for the clock; the guest gets the time (with the resolution of the
   policy; the monotonic clock continues from the stored time); its registers and memory are as they were; the suspend
   request that came meanwhile is noticed; if the function fails, the process exits with status 9 *)
Theorem time_given : forall s sp text vars,
  imported s sp text vars -> pc s = L_rt_time -> gives_time s sp text vars (arg2 (mm s) sp).
Proof. exact rt_time_ok. Qed.
Print Assumptions time_given.
Example time_given_example :
  guest_time ex_mem 2097152 65536 6 9 123456789 = 7000000000 + (9000000000 + 117440512 - 5000000000) /\
  guest_time ex_mem 2097152 65536 5 9 123456789 = 9117440512.
Proof. vm_compute. split; reflexivity. Qed.

(** * C98: the guest's monotonic clock *)

Theorem guest_clock_never_goes_back : forall l,
  Forall clocked l -> chained l -> StronglySorted Z.le (seen l).
Proof. exact clock_life. Qed.
Print Assumptions guest_clock_never_goes_back.
(* Every resolution of a policy (process.go:179) makes such a mask *)
Theorem policy_masks : forall reso, exists k, 0 <= k <= 30 /\ forall t, 0 <= t < 2 ^ 32 -> Z.land t (Limits.timeMask reso) = t - t mod 2 ^ k.
Proof.
  intros reso. destruct (LimitsProps.time_mask_exact reso) as (k & Hk & _ & H). exists k. split; [lia|exact H].
Qed.
Print Assumptions policy_masks.
Definition ex_mem2 : Z -> Z := sto 8 ex_mem (65536 + 8) (7000000000 + (12000000000 - 5000000000)).
Definition ex_life : list incarnation :=
  [Incarnation ex_mem 2097152 65536 (2 ^ 32 - 2 ^ 24) (5, 3) [(9, 123456789); (9, 123456790); (10, 0)] (12, 1000);
   Incarnation ex_mem2 2097152 65536 (2 ^ 32 - 2 ^ 24) (5, 16777215) [(6, 0)] (6, 999999999)].
Example clock_example : Forall clocked ex_life /\ chained ex_life /\
  seen ex_life = [11117440512; 11117440512; 12000000000; 14000000000; 15000000000; 15989855744].
Proof.
  split; [|vm_compute; repeat split].
  assert (Hm : forall t, 0 <= t < 2 ^ 32 -> Z.land t (2 ^ 32 - 2 ^ 24) = t - t mod 2 ^ 24).
  { intros t Ht. replace (2 ^ 32 - 2 ^ 24) with (Z.land (Z.lnot (Z.ones 24)) (Z.ones 32)) by reflexivity.
    rewrite Z.land_assoc, (Z.land_comm t), <- Z.land_assoc, (Z.land_ones t 32), (Z.mod_small t) by lia.
    rewrite Z.land_comm, <- Z.ldiff_land, Z.ldiff_ones_r by lia. rewrite Z.shiftl_mul_pow2, Z.shiftr_div_pow2 by lia.
    pose proof (Z.div_mod t (2 ^ 24) ltac:(lia)). lia. }
  assert (HF : forall r, In r [(5, 3); (9, 123456789); (9, 123456790); (10, 0); (12, 1000); (5, 16777215); (6, 0); (6, 999999999)] -> reading r).
  { intros r Hr. cbn [In] in Hr. unfold reading. repeat (destruct Hr as [<-|Hr]; [cbn [fst snd]; change (2 ^ 33) with 8589934592; change (10 ^ 9) with 1000000000; lia|]). destruct Hr. }
  apply Forall_cons; [|apply Forall_cons; [|apply Forall_nil]]; unfold clocked; cbn [in_start in_reads in_exit in_memory in_text in_vars in_mask app]; cbv zeta;
    (split; [apply Forall_forall; intros r Hr; apply HF; cbn [In] in *; tauto|]); (split; [unfold in_order, earlier; cbn [fst snd]; lia|]);
    (split; [vm_compute; reflexivity|]); (split; [vm_compute; reflexivity|]); (split; [exists 24; split; [lia|exact Hm]|]); vm_compute; split; congruence.
Qed.
(* Without the mask's property it would go back: the loader's reading could be later than a reading with another
   mask *)
Example clock_needs_a_mask : exists i, in_order (in_start i :: in_reads i ++ [in_exit i]) /\
  v_time_mask (in_memory i) (in_text i) = in_mask i /\ ~ StronglySorted Z.le (seen [i]).
Proof.
  exists (Incarnation (sto 4 ex_mem (2097152 - 72) 1) 2097152 65536 1 (5, 3) [(9, 1); (9, 2)] (9, 3)).
  split; [unfold in_order, earlier; cbn [in_start in_reads in_exit app fst snd]; lia|]. split; [vm_compute; reflexivity|].
  intros H. assert (E : forall l, StronglySorted Z.le l -> (nth 0 l 0 <=? nth 1 l 0) = true \/ (length l < 2)%nat).
  { intros l Hl. destruct Hl as [|a l Hl Ha]; [right; cbn; lia|]. destruct Ha; [right; cbn; lia|left; cbn [nth]; apply Z.leb_le; assumption]. }
  destruct (E _ H) as [F|F]; vm_compute in F; [discriminate|lia].
Qed.

(** * C99: endings *)

(* What the process gives to exit_group is what the runtime process (ExitStatus.v) decodes *)
Theorem return_exits : forall s sp text vars result,
  imported s sp text vars -> pc s = L_trap_handler -> 0 <= result < 2 ^ 32 -> rget rax (rg s) = result * 2 ^ 32 ->
  exits_with s sp text vars (ExitStatus.exit_code ExitStatus.X86_64 (ExitStatus.Returned result)).
Proof.
  intros s sp text vars result H Hpc Hr Ha. exact (trap_exits s sp text vars 0 result H Hpc ltac:(lia) ltac:(lia) Hr).
Qed.
Print Assumptions return_exits.
Theorem stack_exhausted_exits : forall s sp text vars result,
  imported s sp text vars -> pc s = L_trap_handler -> 0 <= result < 2 ^ 32 -> rget rax (rg s) = result * 2 ^ 32 + ExitStatus.tCallStackExhausted ->
  exits_with s sp text vars (ExitStatus.exit_code ExitStatus.X86_64 (ExitStatus.StackExhausted (Z.odd (rget rbx (rg s))))).
Proof.
  intros s sp text vars result H Hpc Hr Ha. exact (trap_exits s sp text vars 4 result H Hpc Ha ltac:(lia) Hr).
Qed.
Print Assumptions stack_exhausted_exits.
Theorem trap_code_exits : forall s sp text vars id result,
  imported s sp text vars -> pc s = L_trap_handler -> 0 <= result < 2 ^ 32 -> 0 < id < 128 -> id <> ExitStatus.tCallStackExhausted ->
  rget rax (rg s) = result * 2 ^ 32 + id ->
  exits_with s sp text vars (ExitStatus.exit_code ExitStatus.X86_64 (ExitStatus.Trapped id)).
Proof.
  intros s sp text vars id result H Hpc Hr Hid Hne Ha. pose proof (trap_exits s sp text vars id result H Hpc Ha ltac:(lia) Hr) as HE.
  unfold ExitStatus.tCallStackExhausted in Hne.
  replace (id =? 0) with false in HE by (symmetry; apply Z.eqb_neq; lia). replace (id =? 4) with false in HE by (symmetry; apply Z.eqb_neq; lia).
  rewrite Z.mod_small in HE by lia. exact HE.
Qed.
Print Assumptions trap_code_exits.
(* rt_stop(status) *)
Theorem stop_exits : forall s sp text vars,
  imported s sp text vars -> pc s = L_rt_stop -> exits_with s sp text vars (arg2 (mm s) sp).
Proof. exact rt_stop_ok. Qed.
Print Assumptions stop_exits.
(* A memory access fault at any instruction: the handler makes the program exit, and the address of the instruction is
   on top of its stack *)
Theorem fault_exits : forall s h uc sp text vars,
  delivered s h SIGSEGV uc vars -> imported s sp text vars -> 520 <= sp - vars ->
  exists h2 s', comes_to (More h) (AtSyscall h2) /\ rget rax (rg h2) = SYS_rt_sigreturn /\ sigreturned s h2 uc = More s' /\
    exits_with s' (sp - 8) text vars (ExitStatus.exit_code ExitStatus.X86_64 ExitStatus.OutOfBounds) /\
    ld 8 (mm s') (sp - 8) = cbase s + Z.of_nat (pc s) /\
    (forall a, ~ (vars + 64 <= a < sp) -> mm s' a = mm s a).
Proof. intros s h uc sp text vars HD HI Hr. exact (segv_effect s h uc sp text vars HD HI ltac:(lia)). Qed.
Print Assumptions fault_exits.
Example endings_example :
  imported (ex_cpu L_trap_handler (2 ^ 32 * 7 + 4) (Z.lor (65536 + 9984) suspend_mask)) 131072 2097152 65536 /\
  Z.odd (Z.lor (65536 + 9984) suspend_mask) = true /\ ExitStatus.exit_code ExitStatus.X86_64 (ExitStatus.StackExhausted true) = 102 /\
  arg2 (mm (ex_cpu L_rt_stop 0 (65536 + 9984))) 131072 = 6.
Proof. split; [apply a_process; [lia|right; reflexivity]|]. vm_compute. repeat split. Qed.
(* The kernel has interrupted it *)
Definition ex_frame : Z := 131072 - 1024.
Definition ex_handler (s : cpu) (signum : Z) : cpu :=
  Cpu (Regs 0 0 (ex_frame + 8) 0 ex_frame 0 0 signum 0 0 0 0 0 0 0 0) None None L_signal_handler (cbase s)
    (sto 8 (sto 8 (sto 8 (sto 8 (mm s) ex_frame (cbase s + Z.of_nat L_signal_restorer)) (uc_rbx (ex_frame + 8)) (rget rbx (rg s)))
       (uc_rsp (ex_frame + 8)) (rget rsp (rg s))) (uc_rip (ex_frame + 8)) (cbase s + Z.of_nat (pc s))).
Example delivered_example : forall signum, signum = SIGSEGV \/ signum = ExitStatus.SIGXCPU ->
  let s := ex_cpu L_rt_poll 0 (65536 + 9984) in delivered s (ex_handler s signum) signum (ex_frame + 8) 65536 /\ 520 <= 131072 - 65536.
Proof.
  intros signum Hs s. split; [|lia]. constructor; [|reflexivity|].
  - assert (Hb : forall a, 0 <= mm (ex_handler s signum) a < 256) by (unfold ex_handler; cbn [mm]; do 4 apply sto_range; exact ex_mem_bytes).
    constructor; try exact Hb; destruct Hs as [-> | ->]; vm_compute; repeat split; congruence.
  - intros a Ha. unfold ex_handler, ex_frame, uc_rbx, uc_rsp, uc_rip in *. cbn [mm s ex_cpu rg rget g_rsp] in *. rewrite !sto_other by lia. reflexivity.
Qed.
