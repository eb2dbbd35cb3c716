(* RuntimeFun2Proofs.v: random numbers and memory. *)
From Verif Require Import RuntimeSpec AsmProofs RuntimeTimeProofs RuntimeExitProofs RuntimeFunProofs.
From Coq Require Import Lia ZArith Znumtheory List Bool.
Import ListNotations.
Local Open Scope Z_scope.

(* To the resume routine; the final state's facts remain *)
Ltac resume_by tac :=
  eexists; split; [run_to 126%nat tac; apply resume_leave; lia|].
Ltac resumed_facts := split; [constructor; regs_cbn; try reflexivity; try same_tac|regs_cbn].

Lemma random_some s sp text vars :
  imported s sp text vars -> pc s = L_rt_random -> 1 <= s_random_avail (mm s) vars <= 16 ->
  resumes s sp text vars (v_random (mm s) text (s_random_avail (mm s) vars - 1)) [(16, 4)]
    (fun s2 => s_random_avail (mm s2) vars = s_random_avail (mm s) vars - 1).
Proof.
  intros H Hpc Hav. start H sp text. unfold s_random_avail in *.
  remember (ld 4 mem (vars + 16)) as av eqn:Eav. symmetry in Eav.
  assert (Elt : (sgn 4 av <? 1) = false).
  { unfold sgn. change (card 4 / 2) with 2147483648. replace (av <? _) with true by (symmetry; apply Z.ltb_lt; lia). apply Z.ltb_ge. lia. }
  assert (Eld : forall m x, ld 1 m x = m x) by (intros; cbn; lia).
  assert (Eby : sto 4 mem (vars + 16) (av - 1) (text + (av - 1) - 64) = mem (text + (av - 1) - 64)) by (apply sto_other; lia).
  resume_by ltac:(rewrite ?Hlim, ?Eav, ?Elt).
  resumed_facts.
  - change (0 mod card 1) with 0. rewrite Eld. try rewrite Eby. unfold v_random. replace (text - 64 + (av - 1)) with (text + (av - 1) - 64) by lia. lia.
  - rewrite !ld_sto_other by lia. apply ld_sto_same4. lia.
Qed.
Lemma random_none s sp text vars :
  imported s sp text vars -> pc s = L_rt_random -> s_random_avail (mm s) vars = 0 \/ 2 ^ 31 <= s_random_avail (mm s) vars ->
  resumes s sp text vars (2 ^ 32 - 1) [] no_more.
Proof.
  intros H Hpc Hav. start H sp text. unfold s_random_avail in *. change (2 ^ 31) with 2147483648 in Hav.
  pose proof (ld4_range mem (vars + 16) Hmem) as Rav.
  remember (ld 4 mem (vars + 16)) as av eqn:Eav. symmetry in Eav.
  assert (Elt : (sgn 4 av <? 1) = true).
  { unfold sgn. change (card 4 / 2) with 2147483648. change (card 4) with 4294967296. destruct (av <? 2147483648) eqn:E; apply Z.ltb_lt; [apply Z.ltb_lt in E|]; lia. }
  resume_by ltac:(rewrite ?Hlim, ?Eav, ?Elt).
  resumed_facts. exact Logic.I.
Qed.

Lemma current_memory_ok s sp text vars :
  imported s sp text vars -> pc s = L_current_memory ->
  resumes s sp text vars (s_pages (mm s) vars) [] no_more.
Proof.
  intros H Hpc. start H sp text. unfold s_pages.
  resume_by ltac:(rewrite ?Hlim).
  resumed_facts. exact Logic.I.
Qed.

(** * Memory growth *)

Lemma shiftl16 x : Z.shiftl x 16 = x * 65536.
Proof. rewrite Z.shiftl_mul_pow2 by lia. reflexivity. Qed.

Lemma grow_oom s sp text vars inc :
  imported s sp text vars -> pc s = L_grow_memory -> rget rax (rg s) mod 2 ^ 32 = inc ->
  v_grow_limit (mm s) text < 2 ^ 32 -> v_grow_limit (mm s) text < s_pages (mm s) vars + inc ->
  resumes s sp text vars (2 ^ 32 - 1) [] no_more.
Proof.
  intros H Hpc Hinc Hl Ho. start H sp text. unfold s_pages, v_grow_limit in *. change (2 ^ 32) with 4294967296 in *.
  change 4294967296 with (card 4) in Hinc.
  pose proof (ld4_range mem (vars + 4) Hmem) as Rp. pose proof (ld8_range mem (text - 40) Hmem) as Rl.
  pose proof (card4_range a) as Ri. rewrite Hinc in Ri. change (2 ^ 32) with 4294967296 in Ri.
  remember (ld 4 mem (vars + 4)) as P eqn:EP. symmetry in EP.
  remember (ld 8 mem (text - 40)) as L eqn:EL. symmetry in EL.
  assert (Elt : alu_lt Sub 8 L (inc + P) = true) by (rewrite alu_lt_sub8 by lia; apply Z.ltb_lt; lia).
  resume_by ltac:(rewrite ?Hlim, ?EP, ?EL, ?Hinc, ?Elt).
  resumed_facts. exact Logic.I.
Qed.

Lemma grow_zero s sp text vars :
  imported s sp text vars -> pc s = L_grow_memory -> rget rax (rg s) mod 2 ^ 32 = 0 ->
  s_pages (mm s) vars <= v_grow_limit (mm s) text < 2 ^ 32 ->
  resumes s sp text vars (s_pages (mm s) vars) [(4, 4)] (fun s2 => s_pages (mm s2) vars = s_pages (mm s) vars).
Proof.
  intros H Hpc Hinc Hl. start H sp text. unfold s_pages, v_grow_limit in *. change (2 ^ 32) with (card 4) in Hinc. change (2 ^ 32) with 4294967296 in *.
  pose proof (ld4_range mem (vars + 4) Hmem) as Rp. pose proof (ld8_range mem (text - 40) Hmem) as Rl.
  pose proof (ld8_range mem (text - 32) Hmem) as RM.
  remember (ld 4 mem (vars + 4)) as P eqn:EP. symmetry in EP.
  remember (ld 8 mem (text - 40)) as L eqn:EL. symmetry in EL.
  remember (ld 8 mem (text - 32)) as M eqn:EM. symmetry in EM.
  assert (Elt : alu_lt Sub 8 L P = false) by (rewrite alu_lt_sub8 by lia; apply Z.ltb_ge; lia).
  resume_by ltac:(rewrite ?Hlim, ?EP, ?EL, ?EM, ?Hinc, ?Z.add_0_l, ?Elt, ?Z.shiftl_0_l).
  resumed_facts. rewrite !ld_sto_other by lia. apply ld_sto_same4. lia.
Qed.

(* State at the system call, for both outcomes *)
Lemma grow_call s sp text vars inc :
  imported s sp text vars -> pc s = L_grow_memory -> rget rax (rg s) mod 2 ^ 32 = inc -> 0 < inc ->
  s_pages (mm s) vars + inc <= v_grow_limit (mm s) text -> v_grow_limit (mm s) text <= 65536 -> memory_apart s sp text vars ->
  exists a1 c1 z1 t1,
  let M := v_memory (mm s) text in
  let P := s_pages (mm s) vars in
  comes_to (More s) (AtSyscall (Cpu (Regs a1 c1 3 (rget rbx (rg s)) sp (rget rbp (rg s)) (inc * 65536) (M + P * 65536)
     (rget r8 (rg s)) (rget r9 (rg s)) (rget r10 (rg s)) (rget r11 (rg s)) (P + inc) (rget r13 (rg s)) M text) z1 t1 112 (cbase s) (mm s))) /\ a1 = SYS_mprotect.
Proof.
  intros H Hpc Hinc Hpos Hle Hl HM. start H sp text. unfold memory_apart in HM. unfold s_pages, v_grow_limit, v_memory in *. regs_cbn_in.
  change (2 ^ 32) with (card 4) in Hinc. change (2 ^ 32) with 4294967296 in *. change (2 ^ 47) with 140737488355328 in *.
  pose proof (ld4_range mem (vars + 4) Hmem) as Rp. pose proof (ld8_range mem (text - 40) Hmem) as Rl.
  pose proof (ld8_range mem (text - 32) Hmem) as RM.
  remember (ld 4 mem (vars + 4)) as P eqn:EP. symmetry in EP.
  remember (ld 8 mem (text - 40)) as L eqn:EL. symmetry in EL.
  remember (ld 8 mem (text - 32)) as M eqn:EM. symmetry in EM.
  assert (Elt : alu_lt Sub 8 L (inc + P) = false) by (rewrite alu_lt_sub8 by lia; apply Z.ltb_ge; lia).
  assert (Ez : (inc * 65536 =? 0) = false) by (apply Z.eqb_neq; lia).
  do 4 eexists. cbv zeta. split.
  - run_to 111%nat ltac:(rewrite ?Hlim, ?EP, ?EL, ?EM, ?Hinc, ?Elt, ?shiftl16, ?Ez).
    fetch. red_ins. replace (P + inc) with (inc + P) by lia. replace (M + P * 65536) with (P * 65536 + M) by lia. apply ct_refl.
  - reflexivity.
Qed.

Ltac sysret_cbn := unfold sysret; cbn [rset rg pc cbase].

Lemma grow_done s sp text vars inc :
  imported s sp text vars -> pc s = L_grow_memory -> rget rax (rg s) mod 2 ^ 32 = inc -> 0 < inc ->
  s_pages (mm s) vars + inc <= v_grow_limit (mm s) text -> v_grow_limit (mm s) text <= 65536 -> memory_apart s sp text vars ->
  calls s SYS_mprotect (v_memory (mm s) text + s_pages (mm s) vars * 65536) (inc * 65536) 3 (fun s1 =>
    (forall c k, 0 <= c < 2 ^ 64 -> 0 <= k < 2 ^ 64 ->
       resumes (sysret s1 0 c k (mm s1)) sp text vars (s_pages (mm s) vars) [(4, 4)]
         (fun s2 => s_pages (mm s2) vars = s_pages (mm s) vars + inc /\ rget rbx (rg s2) = rget rbx (rg s))) /\
    (forall r c k, -4095 <= r < 0 -> 0 <= c < 2 ^ 64 -> 0 <= k < 2 ^ 64 ->
       exits_with (sysret s1 r c k (mm s1)) sp text vars (v_memory (mm s) text + s_pages (mm s) vars * 65536))).
Proof.
  intros H Hpc Hinc Hpos Hle Hl HM.
  destruct (grow_call s sp text vars inc H Hpc Hinc Hpos Hle Hl HM) as (a1 & c1 & z1 & t1 & Hrun & ->). cbv zeta in Hrun.
  start H sp text. unfold memory_apart in HM. unfold s_pages, v_grow_limit, v_memory in *. regs_cbn_in.
  change (2 ^ 32) with 4294967296 in *. change (2 ^ 47) with 140737488355328 in *.
  pose proof (ld4_range mem (vars + 4) Hmem) as Rp.
  pose proof (ld8_range mem (text - 32) Hmem) as RM.
  remember (ld 4 mem (vars + 4)) as P eqn:EP. symmetry in EP.
  remember (ld 8 mem (text - 32)) as M eqn:EM. symmetry in EM.
  eexists. split; [exact Hrun|]. regs_cbn. split; [reflexivity|]. split; [reflexivity|]. split; [reflexivity|]. split; [reflexivity|].
  clear Hrun Hinc. assert (Rinc : 0 < inc <= 65536) by lia.
  split.
  - intros c' k' Rc Rk. sysret_cbn.
    resume_by ltac:(rewrite ?Hlim, ?EP, ?Z.land_diag).
    resumed_facts. split; [|reflexivity]. rewrite !ld_sto_other by lia. apply ld_sto_same4. lia.
  - intros r c' k' Rr Rc Rk. sysret_cbn.
    assert (Eu : u64 r = r + 18446744073709551616).
    { unfold u64. change (2 ^ 64) with 18446744073709551616. symmetry. apply (Z.mod_unique_pos _ _ (-1)); lia. }
    assert (Ez : (u64 r mod card 4 =? 0) = false).
    { apply Z.eqb_neq. rewrite Eu. change (card 4) with 4294967296.
      rewrite <- (Z.mod_unique_pos (r + 18446744073709551616) 4294967296 4294967295 (r + 4294967296)); lia. }
    rewrite Eu in *.
    eapply exits_via; [run_to 291%nat ltac:(rewrite ?Hlim, ?Z.land_diag, ?Ez); apply ct_refl|reflexivity|apply exits].
    + imp.
    + reflexivity.
    + regs_cbn. reflexivity.
Qed.
