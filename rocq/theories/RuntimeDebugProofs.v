(* RuntimeDebugProofs.v: debug printing. *)
From Verif Require Import RuntimeSpec AsmProofs RuntimeTimeProofs RuntimeExitProofs RuntimeFunProofs RuntimeFun2Proofs RuntimeIoProofs RuntimeIo2Proofs.
From Coq Require Import Lia ZArith Znumtheory List Bool.
Import ListNotations.
Local Open Scope Z_scope.

(* After the system call of rt_debug *)
Definition advanced (mem : Z -> Z) (sp A N r : Z) : Z -> Z := sto 4 (sto 4 mem (sp + 16) (A + r)) (sp + 8) (N - r).
Lemma debug_post c d b sp q i j e f h k l m n text base mem A N r :
  -4095 <= r <= N -> 0 < N -> 512 <= sp < 140737488355328 -> 0 <= A -> A + N < 4294967296 ->
  ld 4 mem (sp + 16) = A -> ld 4 mem (sp + 8) = N ->
  exists z' t',
  comes_to (More (Cpu (Regs (u64 r) c d b sp q i j e f h k l m n text) None None (L_rt_debug + 21) base mem))
    (if 0 <? r
     then if N - r =? 0
          then More (Cpu (Regs 0 c d b sp q i j e f h k l m n text) z' t' L_Lresume base (advanced mem sp A N r))
          else More (Cpu (Regs r c d b sp q i j e f h k l m n text) z' t' L_rt_debug base (advanced mem sp A N r))
     else if r =? 0 then More (Cpu (Regs 0 c d b sp q i j e f h k l m n text) z' t' L_Lresume base mem)
     else if r =? -4 then More (Cpu (Regs (u64 r) c d b sp q i j e f h k l m n text) z' t' L_rt_debug base mem)
     else More (Cpu (Regs (u64 r) c d b sp q i 6 e f h k l m n text) z' t' L_Lexit base mem)).
Proof.
  intros Rr RN Rsp RA RAN EA EN. unfold advanced.
  assert (Rr' : -4095 <= r < 4294967296) by lia.
  pose proof (sgn8_res r Rr') as ELT. pose proof (zero_res r Rr') as EZ.
  destruct (0 <? r) eqn:E1; [apply Z.ltb_lt in E1|apply Z.ltb_ge in E1].
  - assert (Eu : u64 r = r) by (apply u64_small; lia).
    assert (Elt : (sgn 8 r <? 0) = false) by (rewrite <- Eu, ELT; apply Z.ltb_ge; lia).
    assert (Ez : (r =? 0) = false) by (apply Z.eqb_neq; lia).
    rewrite Eu. clear ELT EZ.
    destruct (N - r =? 0) eqn:En; do 2 eexists.
    + run_to 126%nat ltac:(rewrite ?Z.land_diag, ?Elt, ?Ez, ?EA, ?EN, ?En). apply ct_refl.
    + cbn [Nat.add]. run_to 307%nat ltac:(rewrite ?Z.land_diag, ?Elt, ?Ez, ?EA, ?EN, ?En). apply ct_refl.
  - destruct (Z.eq_dec r 0) as [->|Hnz].
    + cbn [Z.eqb]. change (u64 0) with 0. do 2 eexists.
      run_to 126%nat ltac:(try change (sgn 8 0 <? 0) with false). apply ct_refl.
    + assert (Elt : (sgn 8 (u64 r) <? 0) = true) by (rewrite ELT; apply Z.ltb_lt; lia).
      assert (Ez : (u64 r =? 0) = false) by (rewrite EZ; apply Z.eqb_neq; lia).
      assert (EI : (u64 r mod card 4 =? 4294967292) = (r =? -4)) by (apply (errno_res r 4); lia).
      replace (r =? 0) with false by (symmetry; apply Z.eqb_neq; lia).
      assert (Ediag : Z.land (u64 r) (u64 r) = u64 r) by apply Z.land_diag.
      clear ELT EZ. pose proof (u64_range r) as Ru. remember (u64 r) as U eqn:EU. clear EU.
      destruct (r =? -4) eqn:Ei; do 2 eexists; cbn [Nat.add].
      * run_to 307%nat ltac:(rewrite ?Ediag, ?Elt, ?EI, ?Ez). apply ct_refl.
      * run_to 291%nat ltac:(rewrite ?Ediag, ?Elt, ?EI, ?Ez). apply ct_refl.
Qed.


Lemma debug_ok s sp text vars :
  imported s sp text vars -> pc s = L_rt_debug -> memory_apart s sp text vars -> 0 < arg2 (mm s) sp ->
  arg1 (mm s) sp + arg2 (mm s) sp <= memory_size (mm s) vars ->
  calls s SYS_write 2 (v_memory (mm s) text + arg1 (mm s) sp) (arg2 (mm s) sp) (fun s1 =>
    mm s1 = mm s /\ rget rbx (rg s1) = rget rbx (rg s) /\
    forall r c k, 0 <= c < 2 ^ 64 -> 0 <= k < 2 ^ 64 -> -4095 <= r <= arg2 (mm s) sp ->
      let s' := sysret s1 r c k (mm s1) in
      if 0 <? r
      then if arg2 (mm s) sp - r =? 0
           then resumes s' sp text vars 0 [(sp + 8 - vars, 4); (sp + 16 - vars, 4)] no_more
           else debug_again s' (mm s) sp text vars (arg1 (mm s) sp + r) (arg2 (mm s) sp - r)
      else if r =? 0 then resumes s' sp text vars 0 [] no_more
      else if r =? -4 then debug_again s' (mm s) sp text vars (arg1 (mm s) sp) (arg2 (mm s) sp)
      else exits_with s' sp text vars 6).
Proof.
  intros H Hpc HM HN HO. start H sp text. io_start H.
  destruct (io_pre Debug a c d b sp q i j e f h k l m n text z t base mem vars P M A N S) as (z' & t' & Hrun & Hz); try lia; try assumption.
  destruct (io_mid Debug b sp q j e f h k l text z' t' base mem vars M A N S) as (a2 & c2 & z2 & t2 & Hrun2 & -> & ->); try lia; try assumption.
  replace (S <? A + N) with false in * by (symmetry; apply Z.ltb_ge; lia).
  eexists. split; [eapply ct_trans; [exact Hrun|exact Hrun2]|]. clear Hrun Hrun2. regs_cbn.
  split; [reflexivity|]. split; [reflexivity|]. split; [lia|]. split; [reflexivity|]. split; [reflexivity|]. split; [reflexivity|].
  intros r c' k' Rc Rk Rr. sysret_cbn. cbn [io_fd io_pc]. cbv zeta.
  destruct (debug_post c' N b sp q (A + M) 2 e f h k' l (S + M) M text base mem A N r Rr HN ltac:(lia) ltac:(lia) ltac:(lia) EA EN) as (z3 & t3 & Hrun3).
  change (2 ^ 64) with 18446744073709551616 in *.
  pose proof (u64_range r) as Ru.
  destruct (0 <? r) eqn:E1; [apply Z.ltb_lt in E1; destruct (N - r =? 0) eqn:E2|apply Z.ltb_ge in E1; destruct (r =? 0); [|destruct (r =? -4)]].
  - eexists. split; [eapply ct_trans; [exact Hrun3|apply resume_leave; lia]|]. clear Hrun3. resumed_facts; [|exact Logic.I].
    unfold advanced. rewrite !sto_other by lia. reflexivity.
  - apply Z.eqb_neq in E2. eexists. split; [exact Hrun3|]. clear Hrun3. unfold memory_apart, arg1, arg2, v_memory, advanced. regs_cbn.
    assert (Hadv : forall x, ~ (sp + 8 <= x < sp + 20) -> sto 4 (sto 4 mem (sp + 16) (A + r)) (sp + 8) (N - r) x = mem x) by (intros; rewrite !sto_other by lia; reflexivity).
    split; [reflexivity|]. split.
    { assert (Hv88 : ld 8 (sto 4 (sto 4 mem (sp + 16) (A + r)) (sp + 8) (N - r)) (text - 88) = ld 8 mem (text - 88)) by (rewrite !ld_sto_other by lia; reflexivity).
      imp. repeat apply sto_range; assumption. }
    split. { rewrite !ld_sto_other by lia. rewrite EM. change (2 ^ 32) with 4294967296. change (2 ^ 47) with 140737488355328. lia. }
    split. { rewrite ld_sto_other by lia. apply ld_sto_same4. lia. }
    split. { apply ld_sto_same4. lia. }
    split; [reflexivity|]. exact Hadv.
  - eapply resumes_more; [exact Hrun3| |reflexivity|reflexivity]. apply resume_resumes; lia.
  - eexists. split; [exact Hrun3|]. clear Hrun3. unfold memory_apart, arg1, arg2, v_memory. regs_cbn.
    split; [reflexivity|]. split; [imp|].
    split. { rewrite EM. change (2 ^ 32) with 4294967296. change (2 ^ 47) with 140737488355328. lia. }
    split; [exact EA|]. split; [exact EN|]. split; [reflexivity|]. intros; reflexivity.
  - eapply exits_via; [exact Hrun3|reflexivity|apply exits].
    + clear Hrun3. imp.
    + reflexivity.
    + reflexivity.
Qed.
