(* RuntimeIo2Proofs.v: reading, writing and debug printing as a whole. *)
From Verif Require Import RuntimeSpec AsmProofs RuntimeTimeProofs RuntimeExitProofs RuntimeFunProofs RuntimeFun2Proofs RuntimeIoProofs.
From Coq Require Import Lia ZArith Znumtheory List Bool.
Import ListNotations.
Local Open Scope Z_scope.

Lemma resumes_more s s' sp text vars v fl more :
  comes_to (More s) (More s') -> resumes s' sp text vars v fl more ->
  mm s = mm s' -> rget rbx (rg s) = rget rbx (rg s') -> resumes s sp text vars v fl more.
Proof.
  intros Hc (s2 & H1 & [X1 X2 X3 X4 X5] & H3) Hm Hb. exists s2. split; [eapply ct_trans; eassumption|]. split; [|exact H3].
  constructor; try assumption; [rewrite Hb; exact X4|rewrite Hm; exact X5].
Qed.
Lemma resume_resumes a c d b sp q i j e f h k l m n text z t base mem vars :
  4096 <= text < 140737488355328 -> 0 <= base /\ base + 340 <= text - 88 -> vars + 512 <= sp < 140737488355328 -> 0 <= vars ->
  resumes (Cpu (Regs a c d b sp q i j e f h k l m n text) z t L_Lresume base mem) sp text vars a [] no_more.
Proof.
  intros Ht Hb Hsp Hv. eexists. split; [apply resume_leave; lia|]. resumed_facts. exact Logic.I.
Qed.

Lemma io_nothing fn s sp text vars :
  imported s sp text vars -> pc s = io_pc fn -> memory_apart s sp text vars -> arg2 (mm s) sp = 0 ->
  resumes s sp text vars 0 [] no_more.
Proof.
  intros H Hpc HM HN. start H sp text. io_start H.
  destruct (io_pre fn a c d b sp q i j e f h k l m n text z t base mem vars P M A N S) as (z' & t' & Hrun & ->); try lia; try assumption.
  rewrite HN in Hrun. change (0 =? 0) with true in Hrun.
  eapply resumes_more.
  - eapply ct_trans; [exact Hrun|].
    destruct fn; cbn [io_pc Nat.add]; run_to 126%nat idtac; apply ct_refl.
  - apply resume_resumes; lia.
  - reflexivity.
  - reflexivity.
Qed.

Lemma io_outside fn s sp text vars :
  imported s sp text vars -> pc s = io_pc fn -> memory_apart s sp text vars -> 0 < arg2 (mm s) sp ->
  memory_size (mm s) vars < arg1 (mm s) sp + arg2 (mm s) sp ->
  exits_with s sp text vars 105.
Proof.
  intros H Hpc HM HN HO. start H sp text. io_start H.
  destruct (io_pre fn a c d b sp q i j e f h k l m n text z t base mem vars P M A N S) as (z' & t' & Hrun & Hz); try lia; try assumption.
  destruct (io_mid fn b sp q j e f h k l text z' t' base mem vars M A N S) as (a2 & c2 & z2 & t2 & Hrun2 & -> & ->); try lia; try assumption.
  replace (S <? A + N) with true in * by (symmetry; apply Z.ltb_lt; lia).
  eapply exits_via; [eapply ct_trans; [exact Hrun|exact Hrun2]|reflexivity|apply exits].
  - clear Hrun Hrun2. imp.
  - reflexivity.
  - reflexivity.
Qed.


Lemma io_ok fn s sp text vars :
  fn <> Debug -> imported s sp text vars -> pc s = io_pc fn -> memory_apart s sp text vars -> 0 < arg2 (mm s) sp ->
  arg1 (mm s) sp + arg2 (mm s) sp <= memory_size (mm s) vars ->
  calls s (io_nr fn) (io_fd fn) (v_memory (mm s) text + arg1 (mm s) sp) (arg2 (mm s) sp) (fun s1 =>
    mm s1 = mm s /\ rget rbx (rg s1) = rget rbx (rg s) /\
    forall r c k m', 0 <= c < 2 ^ 64 -> 0 <= k < 2 ^ 64 -> -4095 <= r <= arg2 (mm s) sp ->
      kernel_stored (mm s1) m' (v_memory (mm s) text + arg1 (mm s) sp) (arg2 (mm s) sp) ->
      match after_io fn r with
      | inl v => resumes (sysret s1 r c k m') sp text vars v [] no_more
      | inr st => exits_with (sysret s1 r c k m') sp text vars st
      end).
Proof.
  intros Hfn H Hpc HM HN HO. start H sp text. io_start H.
  destruct (io_pre fn a c d b sp q i j e f h k l m n text z t base mem vars P M A N S) as (z' & t' & Hrun & Hz); try lia; try assumption.
  destruct (io_mid fn b sp q j e f h k l text z' t' base mem vars M A N S) as (a2 & c2 & z2 & t2 & Hrun2 & -> & ->); try lia; try assumption.
  replace (S <? A + N) with false in * by (symmetry; apply Z.ltb_ge; lia).
  eexists. split; [eapply ct_trans; [exact Hrun|exact Hrun2]|]. clear Hrun Hrun2. regs_cbn.
  split; [reflexivity|]. split; [reflexivity|]. split; [lia|]. split; [reflexivity|]. split; [reflexivity|]. split; [reflexivity|].
  intros r c' k' m' Rc Rk Rr [Hb Hk]. sysret_cbn.
  destruct (io_post fn c' N b sp q (A + M) (io_fd fn) e f h k' l (S + M) M text base m' r Hfn ltac:(lia) ltac:(lia)) as (a3 & j3 & z3 & t3 & Hrun3 & -> & ->).
  assert (Hv88 : ld 8 m' (text - 88) = ld 8 mem (text - 88)) by (apply ld_ext; intros; apply Hk; lia).
  change (2 ^ 64) with 18446744073709551616 in *.
  pose proof (u64_range r) as Ru.
  destruct (after_io fn r) as [v|st] eqn:Ea.
  - eapply resumes_more; [exact Hrun3| |reflexivity|reflexivity]. apply resume_resumes; lia.
  - assert (Rst : 0 <= st < 10).
    { unfold after_io in Ea. destruct fn; [destruct (0 <=? r)|destruct (0 <? r)|]; try destruct ((r =? -11) || (r =? -4)); try discriminate; inversion Ea; lia. }
    eapply exits_via; [exact Hrun3|reflexivity|apply exits].
    + clear Hrun3. imp.
    + reflexivity.
    + reflexivity.
Qed.
