(* RuntimeProps3.v: suspend requests, confinement and start of guest processes (runtime/loader/x86_64/runtime.S). *)
From Verif Require Import RuntimeSpec RuntimeSched AsmProofs RuntimeTimeProofs RuntimeExitProofs RuntimeFunProofs RuntimeFun2Proofs RuntimeSigProofs RuntimeSignalProofs
  RuntimeCheckProofs RuntimeSuspendProofs RuntimeProps.
From Coq Require Import Lia ZArith List Bool.
Import ListNotations.
Local Open Scope Z_scope.

(** * C104: suspend requests *)

(* A suspend signal at any instruction of the program: what the handler does, and what the program is like when it goes
   on *)
Theorem suspend_signal_effect : forall s h signum uc vars,
  delivered s h signum uc vars -> signum <> SIGSEGV -> (pc s < length runtime)%nat -> (forall a, 0 <= mm s a < 256) ->
  exists h2, comes_to (More h) (AtSyscall h2) /\ rget rax (rg h2) = SYS_rt_sigreturn /\
    exists s', sigreturned s h2 uc = More s' /\ signalled vars s s'.
Proof. exact suspend_effect. Qed.
Print Assumptions suspend_signal_effect.

(* An import function is called; signals come at any time, the kernel returns anything, the C function returns
   anything.  When control goes back to the guest program, the registers that it depends on are as they were; and if there
   was a suspend request, now or earlier, then the limit register says so. *)
Theorem suspend_request_never_lost_partial : forall s sp text vars already s2 requested,
  imported s sp text vars -> In (pc s) entries -> v_clock_gettime (mm s) text <> text + 16 -> protected (s_suspend (mm s) vars) = false ->
  (already = true -> told_to_suspend (rget rbx (rg s))) ->
  reaches sp text vars (More s) already (Outside (text + 16) s2) requested ->
  rget r15 (rg s2) = text /\ Z.land (rget rbx (rg s2)) (2 ^ 64 - 1 - suspend_mask) = vars + stack_limit_offset /\
  rget rsp (rg s2) <= sp /\
  protected (s_suspend (mm s2) vars) = false /\ (requested = true -> told_to_suspend (rget rbx (rg s2))).
Proof.
  intros s sp text vars already s2 requested H Hin Hne Hpr Hg Hr.
  pose proof (reachable_good s sp text vars already _ requested H Hne Hin Hpr Hg Hr) as Hi.
  pose proof (inv_says _ _ _ (ctx_of_ok s sp text vars H Hne) Hi) as (H1 & H2 & H3 & [H4|(_ & H4 & H5)]).
  - exfalso. cbn [ctx_of x_clock] in H4. congruence.
  - cbn [ctx_of x_text x_sp] in *. split; [exact H1|]. split; [exact H2|]. split; [lia|]. split; [exact H4|exact H5].
Qed.
Print Assumptions suspend_request_never_lost_partial.

(* Executions without interference are among them *)
Lemma comes_reaches sp text vars e e' g : comes_to e e' -> reaches sp text vars e g e' g.
Proof.
  intros [n H]. revert e H. induction n as [|n IH]; intros e H; [cbn [continue_] in H; subst; apply rc_here|].
  destruct e; cbn [continue_] in H; try (subst; apply rc_here). eapply rc_move; [apply mv_step|]. apply IH. exact H.
Qed.
Lemma reaches_trans sp text vars e1 g1 e2 g2 e3 g3 :
  reaches sp text vars e1 g1 e2 g2 -> reaches sp text vars e2 g2 e3 g3 -> reaches sp text vars e1 g1 e3 g3.
Proof. intros H. induction H; intros H'; [exact H'|]. eapply rc_move; [eassumption|]. apply IHreaches. exact H'. Qed.

(* A request that comes while the clock is being read: only the variable tells about it then *)
Definition clock_memory (s1 : cpu) (vars sec nsec : Z) : Z -> Z :=
  sto 8 (sto 8 (sto 4 (mm s1) (vars + 20) (Z.lor (s_suspend (mm s1) vars) 1)) (rget rsi (rg s1)) sec) (rget rsi (rg s1) + 8) nsec.
Theorem suspend_during_clock : forall s sp text vars,
  imported s sp text vars -> pc s = L_rt_time -> v_clock_gettime (mm s) text <> text + 16 -> protected (s_suspend (mm s) vars) = false ->
  exists s1 s2, comes_to (More s) (Outside (v_clock_gettime (mm s) text) s1) /\
    reaches sp text vars (More s) false (Outside (text + 16) s2) true /\ told_to_suspend (rget rbx (rg s2)) /\ rget rsp (rg s2) = sp.
Proof.
  intros s sp text vars H Hpc Hne Hpr.
  destruct (rt_time_ok s sp text vars H Hpc) as (s1 & Hr1 & _ & Hok & _).
  assert (Hin : In (pc s) entries) by (rewrite Hpc; vm_compute; tauto).
  assert (R1 : reaches sp text vars (More s) false (Outside (v_clock_gettime (mm s) text) s1) false) by (apply comes_reaches; exact Hr1).
  pose proof (ctx_of_ok s sp text vars H Hne) as HC.
  pose proof (reachable_good s sp text vars false _ false H Hne Hin Hpr ltac:(discriminate) R1) as Hi.
  destruct Hi as [(_ & A & k & j & l & HG & Hp & Hk & Hj & Hsl & Q1 & Q2 & Q3 & Hv)|(Hx & _)].
  2: { exfalso. cbn [ctx_of x_text] in Hx. congruence. }
  destruct (gam_get_sp _ A false s1 k HG Hk) as [Hsp Rk].
  assert (Hsi : rget rsi (rg s1) = sp + j) by (pose proof (ga_regs _ _ _ _ HG rsi) as Hx; rewrite Hj in Hx; exact Hx).
  cbn [ctx_of x_sp] in Hsp.
  assert (Ec : v_clock_gettime (mm s1) text = v_clock_gettime (mm s) text) by (exact (ga_clock _ _ _ _ HG)).
  pose proof (ga_mem _ _ _ _ HG) as Hb. pose proof (ld4_range (mm s1) (vars + 20) Hb) as RS.
  destruct H as [_ _ _ _ _ [V1 [V2 [V3 V4]]] Ap _ _].
  assert (RL : 0 <= Z.lor (s_suspend (mm s1) vars) 1 < 4294967296).
  { unfold s_suspend. split; [apply Z.lor_nonneg; lia|]. pose proof (lor_range_pow (ld 4 (mm s1) (vars + 20)) 1 32 ltac:(lia)) as L. change (2 ^ 32) with 4294967296 in L. apply L; lia. }
  assert (Hcr : clock_returns s1 vars true 9 5 true (c_return runtime s1 0 0 0 0 0 0 0 0 0 (clock_memory s1 vars 9 5))).
  { exists 0, 0, 0, 0, 0, 0, 0, 0, 0, (clock_memory s1 vars 9 5). split; [reflexivity|]. split; [reflexivity|].
    split; [repeat constructor; lia|]. unfold clock_memory. split; [intros a; repeat apply sto_range; exact Hb|].
    rewrite Hsi. split; [rewrite ld_sto_other by lia; apply ld_sto_same8; lia|]. split; [apply ld_sto_same8; lia|].
    split; [rewrite !ld_sto_other by lia; rewrite ld_sto_same4 by exact RL; reflexivity|].
    intros a A1 A2 A3. rewrite !sto_other by lia. reflexivity. }
  destruct (Hok 9 5 true _ Hcr ltac:(lia) ltac:(lia)) as (s2 & Hr2 & [T1 T2 T3 T4 T5] & _).
  exists s1, s2. split; [exact Hr1|]. split.
  - eapply reaches_trans; [exact R1|]. rewrite <- Ec. eapply rc_move; [eapply mv_clock; exact Hcr|]. apply comes_reaches. exact Hr2.
  - rewrite T2, T4. cbn [orb limit_after]. split; [|reflexivity]. unfold told_to_suspend. rewrite Z.land_lor_distr_l, Z.land_diag.
    rewrite Z.lor_comm. apply Z.bits_inj'. intros n Hn. rewrite Z.lor_spec, Z.land_spec. destruct (Z.testbit suspend_mask n), (Z.testbit _ n); reflexivity.
Qed.
Print Assumptions suspend_during_clock.
Example suspend_example : let s := ex_cpu L_rt_time 0 (65536 + 9984) in
  imported s 131072 2097152 65536 /\ In (pc s) entries /\ v_clock_gettime (mm s) 2097152 <> 2097152 + 16 /\ protected (s_suspend (mm s) 65536) = false.
Proof.
  cbv zeta. destruct (a_process L_rt_time 0 (65536 + 9984) ltac:(lia) ltac:(left; reflexivity)) as (H1 & _ & _ & H4 & H5).
  split; [exact H1|]. split; [vm_compute; tauto|]. split; [exact H4|exact H5].
Qed.
(* What is assumed of the C function: while it runs, either it hasn't changed rbx, or no signal comes.  The calling
   convention allows it to use the register.  Then the handler sets the bit of another word, and the request is
   lost. *)
Theorem suspend_in_c_function_refuted : exists h signum uc vars sp other rip,
  rget rdx (rg h) = uc /\ ld 8 (mm h) (uc_rbx uc) <> vars + stack_limit_offset /\
  interrupted h signum uc other sp (ld 8 (mm h) (uc_rbx uc)) rip /\ signum <> SIGSEGV /\ vars + 64 <= rget rsp (rg h) /\
  exists h2, comes_to (More h) (AtSyscall h2) /\ rget rax (rg h2) = SYS_rt_sigreturn /\
    s_suspend (mm h2) vars = s_suspend (mm h) vars /\ s_suspend (mm h) vars = 0 /\ s_suspend (mm h2) other = 1.
Proof.
  (* rbx is 0x8000 higher than the limit should be *)
  set (s := ex_cpu L_rt_poll 0 (65536 + 32768 + 9984)). exists (ex_handler s 24), 24, (ex_frame + 8), 65536, 131072, (65536 + 32768), (cbase s + Z.of_nat L_rt_poll).
  assert (HI : interrupted (ex_handler s 24) 24 (ex_frame + 8) (65536 + 32768) 131072 (ld 8 (mm (ex_handler s 24)) (uc_rbx (ex_frame + 8))) (cbase s + Z.of_nat L_rt_poll)).
  { assert (Hb : forall a, 0 <= mm (ex_handler s 24) a < 256) by (unfold ex_handler; cbn [mm]; do 4 apply sto_range; exact ex_mem_bytes).
    constructor; try exact Hb; vm_compute; repeat split; congruence. }
  split; [reflexivity|]. split; [vm_compute; discriminate|]. split; [exact HI|]. split; [discriminate|]. split; [vm_compute; discriminate|].
  destruct (suspend_signal _ _ _ _ _ _ _ HI ltac:(discriminate)) as (h2 & Hr & Hax & _ & _ & Hsu & Hrest).
  exists h2. split; [exact Hr|]. split; [exact Hax|].
  assert (E0 : s_suspend (mm (ex_handler s 24)) 65536 = 0) by (vm_compute; reflexivity).
  split; [|split; [exact E0|rewrite Hsu; vm_compute; reflexivity]].
  unfold s_suspend. apply ld_ext. intros x Hx. change (Z.of_nat 4) with 4 in Hx. unfold ex_frame, uc_rbx in *. apply Hrest; lia.
Qed.
Print Assumptions suspend_in_c_function_refuted.

(** * C105: confinement *)

(* Whatever happens, the code doesn't get stuck or trap; it makes only the system calls that the sandbox permits; it leaves
   only for the C function and the guest program's resume routine *)
Theorem runtime_is_confined : forall s sp text vars already e requested,
  imported s sp text vars -> In (pc s) entries -> v_clock_gettime (mm s) text <> text + 16 -> protected (s_suspend (mm s) vars) = false ->
  (already = true -> told_to_suspend (rget rbx (rg s))) ->
  reaches sp text vars (More s) already e requested ->
  match e with
  | More s2 => sp - 64 <= rget rsp (rg s2) <= sp
  | AtSyscall s2 => In (rget rax (rg s2)) permitted
  | Outside a s2 => (a = v_clock_gettime (mm s) text \/ a = text + 16) /\ sp - 64 <= rget rsp (rg s2) <= sp
  | Breakpoint _ | Stuck => False
  end.
Proof.
  intros s sp text vars already e requested H Hin Hne Hpr Hg Hr.
  pose proof (reachable_good s sp text vars already e requested H Hne Hin Hpr Hg Hr) as Hi.
  pose proof (inv_says _ _ _ (ctx_of_ok s sp text vars H Hne) Hi) as HS. cbn [ctx_of x_text x_sp x_clock] in HS.
  destruct e; try exact HS; [tauto|tauto|]. destruct HS as (_ & _ & H3 & H4). tauto.
Qed.
Print Assumptions runtime_is_confined.
(* It stores only to its variables, to the 64 bytes below the guest's stack pointer, and to the arguments *)
Theorem runtime_stores_are_confined : forall s sp text vars already s1 requested s2 x,
  imported s sp text vars -> In (pc s) entries -> v_clock_gettime (mm s) text <> text + 16 -> protected (s_suspend (mm s) vars) = false ->
  (already = true -> told_to_suspend (rget rbx (rg s))) ->
  reaches sp text vars (More s) already (More s1) requested ->
  step runtime s1 = More s2 \/ step runtime s1 = AtSyscall s2 \/ (exists a, step runtime s1 = Outside a s2) ->
  ~ (vars <= x < vars + 24) -> ~ (sp - 64 <= x < sp + 24) -> mm s2 x = mm s1 x.
Proof.
  intros s sp text vars already s1 requested s2 x H Hin Hne Hpr Hg Hr Hs X1 X2.
  pose proof (reachable_good s sp text vars already _ requested H Hne Hin Hpr Hg Hr) as Hi.
  destruct (inv_step _ _ _ (ctx_of_ok s sp text vars H Hne) Hi) as [_ Hst]. exact (Hst s2 Hs x X1 X2).
Qed.
Print Assumptions runtime_stores_are_confined.

(** * C106: start *)

(* The loader's memory is unmapped, then the sandbox is entered, and only after that the guest program starts;
   failure of either ends the process.  The guest program's registers don't contain anything else than what it needs. *)
Theorem sandbox_before_program : forall s routine sp limit vars,
  loaded s routine sp limit vars -> pc s = L_runtime_init ->
  calls s SYS_munmap (2 ^ 33) 65536 (rget rdx (rg s)) (fun s1 => mm s1 = mm s /\
    forall r c k, -4095 <= r <= 0 -> 0 <= c < 2 ^ 64 -> 0 <= k < 2 ^ 64 ->
      let s' := sysret s1 r c k (mm s1) in
      if r =? 0
      then calls s' SYS_seccomp 1 0 (sp - 16) (fun s2 =>
             ld 8 (mm s2) (sp - 16) = 16 /\ ld 8 (mm s2) (sp - 8) = cbase s + Z.of_nat L_Lseccomp_filter /\
             (forall x, ~ (sp - 16 <= x < sp) -> mm s2 x = mm s x) /\ init_result s2 routine sp limit vars)
      else quits (More s') 34 (mm s)).
Proof. exact init_ok. Qed.
Print Assumptions sandbox_before_program.
Theorem start_without_sandbox : forall s routine sp limit vars,
  loaded s routine sp limit vars -> pc s = L_runtime_init_no_sandbox ->
  if Z.odd limit then quits (More s) 102 (mm s) else starts (More s) routine sp limit vars (mm s).
Proof. exact start_ok. Qed.
Print Assumptions start_without_sandbox.
Example start_example : loaded (Cpu (Regs 1 2 3 (65536 + 9984) 131072 5 6 7 8 9 10 11 12 13 14 (2097152 + 48)) None None L_runtime_init (2097152 - 4096) ex_mem)
  (2097152 + 48) 131072 (65536 + 9984) 65536 /\ Z.land (2097152 + 48) (2 ^ 64 - 128) = 2097152.
Proof.
  split; [|reflexivity]. constructor; try exact ex_mem_bytes; try reflexivity.
  - intros r. destruct r; vm_compute; split; congruence.
  - vm_compute. repeat split; congruence.
  - split; [vm_compute; split; congruence|]. vm_compute. intros [_ H]. congruence.
Qed.
