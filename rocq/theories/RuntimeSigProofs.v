(* RuntimeSigProofs.v: the time and stop functions, signal handler and initialization, executed. *)
From Verif Require Import RuntimeSpec AsmProofs RuntimeTimeProofs RuntimeExitProofs RuntimeFunProofs RuntimeFun2Proofs.
From Coq Require Import Lia ZArith Znumtheory List Bool.
Import ListNotations.
Local Open Scope Z_scope.

(** * Time *)

Lemma rt_time_ok s sp text vars :
  imported s sp text vars -> pc s = L_rt_time ->
  gives_time s sp text vars (arg2 (mm s) sp).
Proof.
  intros H Hpc. start H sp text. unfold gives_time, arg2. regs_cbn.
  pose proof (ld4_range mem (sp + 8) Hmem) as RN.
  remember (ld 4 mem (sp + 8)) as clk eqn:EN. symmetry in EN.
  assert (Hfst : exists z' t', comes_to (More (Cpu (Regs a c d b sp q i j e f h k l m n text) z t L_rt_time base mem)) (More (Cpu (Regs a c d b sp q i clk e f h k l m n text) z' t' L_Ltime base mem))).
  { do 2 eexists. run_to 230%nat ltac:(rewrite ?EN). apply ct_refl. }
  destruct Hfst as (z1 & t1 & Hfst).
  destruct (time_whole a c d b sp q i clk e f h k l m n text z1 t1 base mem vars) as (s1 & Hrun1 & Hdi & Hok & Hfail); try lia; try assumption.
  exists s1. split; [|split; [exact Hdi|split]].
  - eapply ct_trans; [exact Hfst|]. exact Hrun1.
  - intros sec nsec sg e' Hret Rs Rn.
    destruct (Hok sec nsec sg e' Hret Rs Rn) as (c2 & d2 & i2 & j2 & e2 & f2 & h2 & k2 & l2 & m2 & z2 & t2 & mem2 & Hrun2 & L0 & Hm2 & Hs2).
    eexists. split; [exact Hrun2|]. split; [constructor; regs_cbn; try reflexivity; exact Hs2|]. exact L0.
  - intros sec nsec sg e' Hret.
    destruct (Hfail sec nsec sg e' Hret) as (a2 & c2 & i2 & e2 & f2 & h2 & k2 & l2 & m2 & z2 & t2 & mem2 & Hrun2 & L0 & Hm2 & Hs2).
    set (b2 := limit_after b (sg || Z.odd (ld 4 mem (vars + 20)))) in *.
    assert (Hb2 : Z.land b2 13835058055282163710 = vars + 9984).
    { unfold b2, limit_after. destruct (sg || _); [|exact Hlim]. rewrite Z.land_lor_distr_l, Hlim. change (Z.land suspend_mask _) with 0. apply Z.lor_0_r. }
    assert (Rb2 : 0 <= b2 < 18446744073709551616).
    { unfold b2, limit_after. destruct (sg || _); [|exact Gb]. apply lor_range. exact Gb. }
    destruct (exit_time a2 c2 18446744073709551615 b2 sp q i2 9 e2 f2 h2 k2 l2 m2 n text z2 t2 base mem2 vars) as (c4 & z4 & t4 & Hrun4); try lia; try assumption.
    eexists. split; [eapply ct_trans; [exact Hrun2|exact Hrun4]|]. regs_cbn. split; [reflexivity|]. split; [reflexivity|].
    unfold s_monotonic. apply ld_sto_same8. lia.
Qed.

(** * Stop *)

Lemma rt_stop_ok s sp text vars :
  imported s sp text vars -> pc s = L_rt_stop -> exits_with s sp text vars (arg2 (mm s) sp).
Proof.
  intros H Hpc. start H sp text. unfold arg2. regs_cbn.
  pose proof (ld4_range mem (sp + 8) Hmem) as RN.
  remember (ld 4 mem (sp + 8)) as code eqn:EN. symmetry in EN.
  eapply exits_via; [run_to 291%nat ltac:(rewrite ?EN); apply ct_refl|reflexivity|apply exits].
  - imp.
  - reflexivity.
  - reflexivity.
Qed.
Lemma sigsegv_exit_ok s sp text vars :
  imported s sp text vars -> pc s = L_Lsigsegv_exit -> exits_with s sp text vars 105.
Proof.
  intros H Hpc. start H sp text.
  eapply exits_via; [run_to 291%nat idtac; apply ct_refl|reflexivity|apply exits].
  - imp.
  - reflexivity.
  - reflexivity.
Qed.

(** * Signals *)

Ltac open_interrupted H :=
  destruct H as [Hpc Hsig Huc Hret Hrbx Hrsp Hrip Hframe Hsn Hmem Hlim Hcode];
  match goal with h : cpu |- _ => destruct h as [[a c d b p q i j e f g k l m n o] z t pc0 base mem] end;
  unfold uc_rbx, uc_rsp, uc_rip in *; unfold stack_limit_offset in Hlim;
  change (2 ^ 64 - 1 - suspend_mask) with 13835058055282163710 in Hlim;
  change (2 ^ 47) with 140737488355328 in *; change (2 ^ 31) with 2147483648 in *;
  regs_cbn_in;
  match goal with Hs : ?v = ?x :> nat |- _ => subst v end.

Lemma suspend_signal h signum uc vars sp rbx0 rip :
  interrupted h signum uc vars sp rbx0 rip -> signum <> SIGSEGV ->
  exists h2, comes_to (More h) (AtSyscall h2) /\ rget rax (rg h2) = SYS_rt_sigreturn /\ rget rsp (rg h2) = rget rsp (rg h) + 8 /\
    ld 8 (mm h2) (uc_rbx uc) = limit_after rbx0 (Z.even (s_suspend (mm h) vars / 2)) /\
    s_suspend (mm h2) vars = Z.lor (s_suspend (mm h) vars) 1 /\
    (forall x, ~ (uc_rbx uc <= x < uc_rbx uc + 8) -> ~ (vars + 20 <= x < vars + 24) -> mm h2 x = mm h x).
Proof.
  intros H Hne. unfold SIGSEGV in Hne. open_interrupted H. subst d j. unfold s_suspend. regs_cbn.
  assert (Rb : 0 <= rbx0 < 18446744073709551616) by (subst rbx0; apply ld8_range; assumption).
  assert (Ecmp : (signum =? 11) = false) by (apply Z.eqb_neq; lia).
  pose proof (ld4_range mem (vars + 20) Hmem) as Rs.
  remember (ld 4 mem (vars + 20)) as S eqn:ES. symmetry in ES.
  pose proof (lor_range rbx0 Rb) as Rl.
  assert (Etest : (Z.land S 2 =? 0) = Z.even (S / 2)).
  { change 2 with (2 ^ 1) at 2. rewrite <- Z.shiftr_div_pow2 by lia.
    rewrite <- Z.negb_odd, <- Z.bit0_odd, Z.shiftr_spec by lia. change (0 + 1) with 1.
    destruct (Z.testbit S 1) eqn:Eb; cbn [negb].
    - apply Z.eqb_neq. intros E0. assert (X : Z.testbit (Z.land S 2) 1 = true) by (rewrite Z.land_spec, Eb; reflexivity). rewrite E0, Z.bits_0 in X. discriminate.
    - apply Z.eqb_eq. apply Z.bits_inj'. intros w Hw. rewrite Z.land_spec, Z.bits_0.
      destruct (Z.eq_dec w 1) as [->|Hw1]; [rewrite Eb; reflexivity|].
      replace (Z.testbit 2 w) with false; [apply andb_false_r|]. symmetry. change 2 with (2 ^ 1). rewrite Z.pow2_bits_eqb by lia. apply Z.eqb_neq. lia. }
  assert (Rl1 : 0 <= Z.lor S 1 < 4294967296) by (pose proof (lor_range_pow S 1 32 ltac:(lia)); change (2 ^ 32) with 4294967296 in *; lia).
  destruct (Z.even (S / 2)) eqn:Eev; unfold limit_after.
  - eexists. split.
    { run_to 57%nat ltac:(rewrite ?Ecmp, ?Hrbx, ?Hlim, ?ES, ?Etest). fetch. red_ins. rewrite ld_sto_other by lia. rewrite ld_sto_other by lia. rewrite Hret.
      rewrite goto_rt by (reflexivity || lia). change (Z.to_nat 68) with 68%nat. cbn [set_rg set_pc rset rg zf lt cbase mm].
      fetch. red_ins. fetch. red_ins. apply ct_refl. }
    regs_cbn. assert (E60 : u64 (p + 8) = p + 8) by (apply u64_small; lia).
    split; [reflexivity|]. split; [exact E60|].
    split; [rewrite ld_sto_other by lia; apply ld_sto_same8; exact Rl|].
    split; [apply ld_sto_same4; exact Rl1|].
    intros x H1 H2. rewrite !sto_other by lia. reflexivity.
  - eexists. split.
    { run_to 57%nat ltac:(rewrite ?Ecmp, ?Hrbx, ?Hlim, ?ES, ?Etest). fetch. red_ins. rewrite ld_sto_other by lia. rewrite Hret.
      rewrite goto_rt by (reflexivity || lia). change (Z.to_nat 68) with 68%nat. cbn [set_rg set_pc rset rg zf lt cbase mm].
      fetch. red_ins. fetch. red_ins. apply ct_refl. }
    regs_cbn. assert (E60 : u64 (p + 8) = p + 8) by (apply u64_small; lia).
    split; [reflexivity|]. split; [exact E60|].
    split; [rewrite ld_sto_other by lia; exact Hrbx|].
    split; [apply ld_sto_same4; exact Rl1|].
    intros x H1 H2. rewrite !sto_other by lia. reflexivity.
Qed.

Lemma segv_signal h uc vars sp rbx0 rip :
  interrupted h SIGSEGV uc vars sp rbx0 rip ->
  exists h2, comes_to (More h) (AtSyscall h2) /\ rget rax (rg h2) = SYS_rt_sigreturn /\ rget rsp (rg h2) = rget rsp (rg h) + 8 /\
    ld 8 (mm h2) (uc_rsp uc) = sp - 8 /\ ld 8 (mm h2) (sp - 8) = rip /\ ld 8 (mm h2) (uc_rip uc) = cbase h + Z.of_nat L_Lsigsegv_exit /\
    (forall x, ~ (uc_rsp uc <= x < uc_rip uc + 8) -> ~ (sp - 8 <= x < sp) -> mm h2 x = mm h x).
Proof.
  intros H. unfold SIGSEGV in H. open_interrupted H. subst d j. regs_cbn.
  assert (Rb : 0 <= rip < 18446744073709551616) by (subst rip; apply ld8_range; assumption).
  change (Z.of_nat L_signal_restorer) with 68 in Hret.
  eexists. split.
  { run_to 65%nat ltac:(try change (11 =? 11) with true; rewrite ?Hrsp, ?Hrip). fetch. red_ins. rewrite !ld_sto_other by lia. rewrite Hret.
    rewrite goto_rt by (reflexivity || lia). change (Z.to_nat 68) with 68%nat. cbn [set_rg set_pc rset rg zf lt cbase mm].
    fetch. red_ins. fetch. red_ins. apply ct_refl. }
  regs_cbn. assert (E60 : u64 (p + 8) = p + 8) by (apply u64_small; lia).
  split; [reflexivity|]. split; [exact E60|].
  split; [rewrite !ld_sto_other by lia; apply ld_sto_same8; lia|].
  split; [rewrite ld_sto_other by lia; apply ld_sto_same8; lia|].
  split; [change (Z.of_nat L_Lsigsegv_exit) with 66; apply ld_sto_same8; lia|].
  intros x H1 H2. rewrite !sto_other by lia. reflexivity.
Qed.

(** * Start *)

Lemma odd_test b : (Z.land (b mod card 4) 1 =? 0) = negb (Z.odd b).
Proof.
  assert (E : Z.land (b mod card 4) 1 = if Z.odd b then 1 else 0).
  { change 1 with (Z.ones 1) at 1. rewrite Z.land_ones by lia. change (2 ^ 1) with 2.
    rewrite <- (Zmod_div_mod 2 (card 4)); [apply Zmod_odd|lia|reflexivity|]. exists (2 ^ 31). reflexivity. }
  rewrite E. destruct (Z.odd b); reflexivity.
Qed.

Lemma start_ok s routine sp limit vars :
  loaded s routine sp limit vars -> pc s = L_runtime_init_no_sandbox ->
  if Z.odd limit then quits (More s) 102 (mm s) else starts (More s) routine sp limit vars (mm s).
Proof.
  intros [Hro Hsp Hli Hlim Hregs Hmem Hrange Hcode] Hpc.
  destruct s as [[a c d b p q i j e f h k l m n o] z t pc0 base mem].
  pose proof (Hregs rbx) as Gb. pose proof (Hregs r15) as Go. clear Hregs. unfold stack_limit_offset in Hlim.
  change (2 ^ 64 - 1 - suspend_mask) with 13835058055282163710 in Hlim.
  change (2 ^ 64) with 18446744073709551616 in *. change (2 ^ 47) with 140737488355328 in *. change (Z.of_nat (length runtime)) with 340 in *.
  regs_cbn_in. subst p pc0 o b. pose proof (odd_test limit) as Eo.
  destruct (Z.odd limit); cbn [negb] in Eo.
  - unfold quits. regs_cbn. eexists. split; [run_to 305%nat ltac:(rewrite ?Eo); fetch; red_ins; apply ct_refl|]. regs_cbn. split; [reflexivity|]. split; reflexivity.
  - assert (RL : 0 <= Z.land routine 18446744073709551488) by (apply Z.land_nonneg; lia).
    eexists. split.
    + run_to 132%nat ltac:(rewrite ?Eo, ?Hlim). fetch. red_ins. rewrite ld_sto_same8 by lia. unfold goto. regs_cbn. cbn [set_rg set_pc rset rg zf lt cbase mm].
      change (Z.of_nat (length runtime)) with 340. replace ((base <=? routine) && (routine <? base + 340)) with false.
      { apply ct_refl. }
      symmetry. apply not_true_iff_false. intros X. apply andb_prop in X. destruct X as [X1 X2]. apply Z.leb_le in X1. apply Z.ltb_lt in X2. tauto.
    + regs_cbn. split; [|split].
      * rewrite u64_small by lia. replace (sp - 8 + 8) with sp by lia. reflexivity.
      * unfold s_unused. rewrite !ld_sto_other by lia. rewrite (ld_sto_same 4); [reflexivity|]. split; [lia|reflexivity].
      * intros x H1 H2. rewrite !sto_other by lia. reflexivity.
Qed.

Lemma res_zero r : -4095 <= r <= 0 -> (Z.land (u64 r mod card 4) (u64 r mod card 4) =? 0) = (r =? 0).
Proof.
  intros H. rewrite Z.land_diag. unfold u64, card. change (2 ^ 64) with 18446744073709551616. change (2 ^ (8 * 4)) with 4294967296.
  destruct (Z.eq_dec r 0) as [->|Hn]; [reflexivity|].
  replace (r =? 0) with false by (symmetry; apply Z.eqb_neq; exact Hn). apply Z.eqb_neq.
  replace (r mod 18446744073709551616) with (r + 18446744073709551616).
  2: { replace r with (r + 18446744073709551616 + (-1) * 18446744073709551616) at 2 by lia. rewrite Z.mod_add by lia. symmetry. apply Z.mod_small. lia. }
  replace ((r + 18446744073709551616) mod 4294967296) with (r + 4294967296); [lia|].
  replace (r + 18446744073709551616) with (r + 4294967296 + 4294967295 * 4294967296) by lia. rewrite Z.mod_add by lia. symmetry. apply Z.mod_small. lia.
Qed.

Lemma init_ok s routine sp limit vars :
  loaded s routine sp limit vars -> pc s = L_runtime_init ->
  calls s SYS_munmap (2 ^ 33) 65536 (rget rdx (rg s)) (fun s1 => mm s1 = mm s /\
    forall r c k, -4095 <= r <= 0 -> 0 <= c < 2 ^ 64 -> 0 <= k < 2 ^ 64 ->
      let s' := sysret s1 r c k (mm s1) in
      if r =? 0
      then calls s' SYS_seccomp 1 0 (sp - 16) (fun s2 =>
             ld 8 (mm s2) (sp - 16) = 16 /\ ld 8 (mm s2) (sp - 8) = cbase s + Z.of_nat L_Lseccomp_filter /\
             (forall x, ~ (sp - 16 <= x < sp) -> mm s2 x = mm s x) /\ init_result s2 routine sp limit vars)
      else quits (More s') 34 (mm s)).
Proof.
  intros [Hro Hsp Hli Hlim Hregs Hmem Hrange Hcode] Hpc.
  destruct s as [[a c d b p q i j e f h k l m n o] z t pc0 base mem].
  change (2 ^ 64) with 18446744073709551616 in *. change (2 ^ 47) with 140737488355328 in *. change (Z.of_nat (length runtime)) with 340 in *.
  regs_cbn_in. subst p pc0 o b. unfold calls. regs_cbn.
  eexists. split; [run_to 6%nat idtac; fetch; red_ins; apply ct_refl|]. regs_cbn.
  split; [reflexivity|]. split; [reflexivity|]. split; [reflexivity|]. split; [reflexivity|]. split; [reflexivity|].
  intros r c1 k1 Rr Rc Rk. sysret_cbn. pose proof (res_zero r Rr) as Ez. pose proof (u64_range r) as Ru.
  destruct (r =? 0) eqn:Er.
  - set (U := u64 r) in *. clearbody U.
    eexists. split; [run_to 18%nat ltac:(rewrite ?Ez); fetch; red_ins; apply ct_refl|]. regs_cbn.
    split; [reflexivity|]. split; [reflexivity|]. split; [reflexivity|]. split; [reflexivity|].
    split; [rewrite ld_sto_other by lia; apply ld_sto_same8; lia|]. split; [apply ld_sto_same8; lia|].
    split; [intros x Hx; rewrite !sto_other by lia; reflexivity|].
    clear Ez Ru U Er. intros r2 c2 k2 Rr2 Rc2 Rk2. change (2 ^ 64) with 18446744073709551616 in *. sysret_cbn. pose proof (res_zero r2 Rr2) as Ez2. pose proof (u64_range r2) as Ru2.
    set (U2 := u64 r2) in *. clearbody U2. regs_cbn.
    set (mem2 := sto 8 (sto 8 mem (sp - 16) 16) (sp - 8) (base + 1)) in *.
    assert (Hm2 : forall x, 0 <= mem2 x < 256) by (unfold mem2; repeat apply sto_range; assumption). clearbody mem2.
    destruct (r2 =? 0) eqn:Er2.
    + match goal with |- context [More ?s0] => set (S := s0) end.
      assert (Hstep : exists S', comes_to (More S) (More S') /\ pc S' = L_runtime_init_no_sandbox /\ mm S' = mem2 /\ loaded S' routine sp limit vars).
      { eexists. split; [unfold S; run_to 22%nat ltac:(rewrite ?Ez2); apply ct_refl|]. split; [reflexivity|]. split; [reflexivity|].
        constructor; regs_cbn; try reflexivity; try assumption.
        - intros rr. pose proof (Hregs rr) as X. change (2 ^ 64) with 18446744073709551616. destruct rr; regs_cbn_in; try assumption; try exact X; lia. }
      destruct Hstep as (S' & Hc & Hp & Hm & Hl). pose proof (start_ok S' routine sp limit vars Hl Hp) as Hs. rewrite Hm in Hs.
      destruct (Z.odd limit).
      * destruct Hs as (sx & X1 & X2). exists sx. split; [eapply ct_trans; eassumption|exact X2].
      * destruct Hs as (sx & X1 & X2). exists sx. split; [eapply ct_trans; eassumption|exact X2].
    + unfold quits. eexists. split; [run_to 305%nat ltac:(rewrite ?Ez2); fetch; red_ins; apply ct_refl|]. regs_cbn. split; [reflexivity|]. split; reflexivity.
  - set (U := u64 r) in *. clearbody U.
    unfold quits. eexists. split; [run_to 305%nat ltac:(rewrite ?Ez); fetch; red_ins; apply ct_refl|]. regs_cbn. split; [reflexivity|]. split; reflexivity.
Qed.
