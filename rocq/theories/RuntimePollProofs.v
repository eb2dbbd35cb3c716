(* RuntimePollProofs.v: waiting for input and output. *)
From Verif Require Import RuntimeSpec AsmProofs RuntimeTimeProofs RuntimeExitProofs RuntimeFunProofs RuntimeFun2Proofs RuntimeIoProofs RuntimeIo2Proofs.
From Coq Require Import Lia ZArith Znumtheory List Bool.
Import ListNotations.
Local Open Scope Z_scope.

Lemma ld2_range m a : (forall x, 0 <= m x < 256) -> 0 <= ld 2 m a < 65536.
Proof. intros H. apply (ld_range 2 m H a). Qed.

Definition pollfds (mem : Z -> Z) (sp A N : Z) : Z -> Z := sto 4 (sto 4 (sto 4 (sto 4 mem (sp - 16) 0) (sp - 12) A) (sp - 8) 1) (sp - 4) N.
Lemma poll_call a c d b sp q i j e f h k l m n text z t base mem A N :
  512 <= sp -> sp + 24 <= 140737488355328 ->
  ld 4 mem (sp + 16) = A -> 0 <= A < 4294967296 -> ld 4 mem (sp + 8) = N -> 0 <= N < 4294967296 ->
  exists z' t',
  comes_to (More (Cpu (Regs a c d b sp q i j e f h k l m n text) z t L_rt_poll base mem))
    (AtSyscall (Cpu (Regs 271 A 0 b (sp - 16) q 2 (sp - 16) e f 0 k l m n text) z' t' 146 base (pollfds mem sp A N))).
Proof.
  intros Hs Hs2 EA RA EN RN. unfold pollfds. do 2 eexists.
  run_to 145%nat ltac:(rewrite ?EA, ?EN). fetch. red_ins. apply ct_refl.
Qed.

Lemma poll_post c d b sp q i j e f h k l m n text base mem r r0 r1 :
  512 <= sp -> sp + 24 <= 140737488355328 -> -4095 <= r <= 2 -> 0 <= r0 < 65536 -> 0 <= r1 < 65536 ->
  ld 2 mem (sp - 10) = r0 -> ld 2 mem (sp - 2) = r1 ->
  exists a' c' i' z' t',
  comes_to (More (Cpu (Regs (u64 r) c d b (sp - 16) q i j e f h k l m n text) None None 146 base mem))
    (match after_poll r r0 r1 with
     | inl v => More (Cpu (Regs v c' d b sp q i' 10 e f h k l m n text) z' t' L_Lresume base mem)
     | inr st => More (Cpu (Regs a' c' d b sp q i' st e f h k l m n text) z' t' L_Lexit base mem)
     end) /\ c' = r0 /\ i' = r1 /\ 0 <= a' < 18446744073709551616.
Proof.
  intros Hs Hs2 Rr R0 R1 E0 E1.
  pose proof (sgn8_res r ltac:(lia)) as ELT. pose proof (zero_res r ltac:(lia)) as EZ.
  assert (EA : r < 0 -> (u64 r mod card 4 =? 4294967285) = (r =? -11)) by (intros; apply (errno_res r 11); lia).
  assert (EI : r < 0 -> (u64 r mod card 4 =? 4294967292) = (r =? -4)) by (intros; apply (errno_res r 4); lia).
  assert (Ep : 0 - 0 mod card 2 + r0 = r0) by (change (0 mod card 2) with 0; lia).
  assert (Ep1 : 0 - 0 mod card 2 + r1 = r1) by (change (0 mod card 2) with 0; lia).
  assert (Ediag : Z.land (u64 r) (u64 r) = u64 r) by apply Z.land_diag.
  pose proof (u64_range r) as Ru.
  assert (Rlor : 0 <= Z.lor r0 r1 < 4294967296) by (pose proof (lor_range_pow r0 r1 16 ltac:(lia) R0 R1); change (2 ^ 16) with 65536 in *; lia).
  unfold after_poll. destruct (0 <? r) eqn:Er; [apply Z.ltb_lt in Er|apply Z.ltb_ge in Er].
  - assert (Elt : (sgn 8 (u64 r) <? 0) = false) by (rewrite ELT; apply Z.ltb_ge; lia).
    assert (Ez : (u64 r =? 0) = false) by (rewrite EZ; apply Z.eqb_neq; lia).
    clear ELT EZ EA EI. remember (u64 r) as U eqn:EU. clear EU.
    destruct (Z.land r0 8208 =? 0) eqn:F0; cbn [negb]; [|exists 0; do 4 eexists; split; [run_to 126%nat ltac:(rewrite ?E0, ?E1, ?Ep, ?Ep1, ?Ediag, ?Elt, ?Ez, ?F0); apply ct_refl|lia]].
    destruct (Z.land r0 4294967294 =? 0) eqn:F1; cbn [negb]; [|do 5 eexists; split; [run_to 291%nat ltac:(rewrite ?E0, ?E1, ?Ep, ?Ep1, ?Ediag, ?Elt, ?Ez, ?F0, ?F1); apply ct_refl|lia]].
    destruct (Z.land r1 4294967291 =? 0) eqn:F2; cbn [negb]; [|do 5 eexists; split; [run_to 291%nat ltac:(rewrite ?E0, ?E1, ?Ep, ?Ep1, ?Ediag, ?Elt, ?Ez, ?F0, ?F1, ?F2, ?Z.lor_0_l); apply ct_refl|lia]].
    exists 0. do 4 eexists; split; [run_to 126%nat ltac:(rewrite ?E0, ?E1, ?Ep, ?Ep1, ?Ediag, ?Elt, ?Ez, ?F0, ?F1, ?F2, ?Z.lor_0_l); apply ct_refl|lia].
  - destruct (Z.eq_dec r 0) as [->|Hnz].
    + cbn [Z.eqb orb]. change (u64 0) with 0. do 5 eexists. split.
      { run_to 291%nat ltac:(rewrite ?E0, ?E1, ?Ep, ?Ep1; try change (sgn 8 0 <? 0) with false; try change (0 =? 4294967285) with false; try change (0 =? 4294967292) with false). apply ct_refl. }
      lia.
    + assert (Elt : (sgn 8 (u64 r) <? 0) = true) by (rewrite ELT; apply Z.ltb_lt; lia).
      assert (Ez : (u64 r =? 0) = false) by (rewrite EZ; apply Z.eqb_neq; lia).
      specialize (EA ltac:(lia)). specialize (EI ltac:(lia)). clear ELT EZ. remember (u64 r) as U eqn:EU. clear EU.
      destruct (r =? -11) eqn:Ea; [|destruct (r =? -4) eqn:Ei]; cbn [orb]; try rewrite Ea in EA; try rewrite Ei in EI.
      * exists 0. do 4 eexists. split; [run_to 126%nat ltac:(rewrite ?E0, ?E1, ?Ep, ?Ep1, ?Ediag, ?Elt, ?EA, ?EI, ?Ez); apply ct_refl|lia].
      * exists 0. do 4 eexists. split; [run_to 126%nat ltac:(rewrite ?E0, ?E1, ?Ep, ?Ep1, ?Ediag, ?Elt, ?EA, ?EI, ?Ez); apply ct_refl|lia].
      * assert (EA' : unit -> (U mod card 4 =? 4294967285) = false) by (intros _; exact EA). assert (EI' : unit -> (U mod card 4 =? 4294967292) = false) by (intros _; exact EI). clear EA EI Ea Ei.
        exists U. do 4 eexists. split; [run_to 291%nat ltac:(rewrite ?E0, ?E1, ?Ep, ?Ep1, ?Ediag, ?Elt, ?(EA' tt), ?(EI' tt), ?Ez); apply ct_refl|lia].
Qed.


Lemma poll_ok s sp text vars :
  imported s sp text vars -> pc s = L_rt_poll ->
  calls s SYS_ppoll (sp - 16) 2 0 (fun s1 =>
    rget r10 (rg s1) = 0 /\ rget rbx (rg s1) = rget rbx (rg s) /\ same_except (mm s) (mm s1) vars sp [] /\ (forall x, 0 <= mm s1 x < 256) /\
    ld 4 (mm s1) (sp - 16) = 0 /\ ld 2 (mm s1) (sp - 12) = arg1 (mm s) sp mod 2 ^ 16 /\
    ld 4 (mm s1) (sp - 8) = 1 /\ ld 2 (mm s1) (sp - 4) = arg2 (mm s) sp mod 2 ^ 16 /\
    forall r c k m' r0 r1, 0 <= c < 2 ^ 64 -> 0 <= k < 2 ^ 64 -> -4095 <= r <= 2 ->
      kernel_revents (mm s1) m' (sp - 16) r0 r1 ->
      match after_poll r r0 r1 with
      | inl v => resumes (sysret s1 r c k m') sp text vars v [] no_more
      | inr st => exits_with (sysret s1 r c k m') sp text vars st
      end).
Proof.
  intros H Hpc. start H sp text. unfold arg1, arg2. regs_cbn.
  pose proof (ld4_range mem (sp + 16) Hmem) as RA. pose proof (ld4_range mem (sp + 8) Hmem) as RN.
  remember (ld 4 mem (sp + 16)) as A eqn:EA. symmetry in EA. remember (ld 4 mem (sp + 8)) as N eqn:EN. symmetry in EN.
  destruct (poll_call a c d b sp q i j e f h k l m n text z t base mem A N) as (z1 & t1 & Hrun); try lia; try assumption.
  eexists. split; [exact Hrun|]. clear Hrun. regs_cbn.
  assert (Hpf : forall x, 0 <= pollfds mem sp A N x < 256) by (unfold pollfds; repeat apply sto_range; assumption).
  assert (Hps : forall x, ~ (sp - 16 <= x < sp) -> pollfds mem sp A N x = mem x) by (intros; unfold pollfds; rewrite !sto_other by lia; reflexivity).
  split; [reflexivity|]. split; [reflexivity|]. split; [reflexivity|]. split; [reflexivity|]. split; [reflexivity|]. split; [reflexivity|].
  split. { intros x Hx _. apply Hps. lia. }
  split; [exact Hpf|].
  split. { unfold pollfds. rewrite !ld_sto_other by lia. apply ld_sto_same4. lia. }
  split. { unfold pollfds. rewrite !ld_sto_other by lia. rewrite ld_sto_gen by lia. replace (sp - 12 - (sp - 12)) with 0 by lia. rewrite Z.div_1_r. reflexivity. }
  split. { unfold pollfds. rewrite !ld_sto_other by lia. apply ld_sto_same4. lia. }
  split. { unfold pollfds. rewrite ld_sto_gen by lia. replace (sp - 4 - (sp - 4)) with 0 by lia. rewrite Z.div_1_r. reflexivity. }
  intros r c' k' m' r0 r1 Rc Rk Rr (Hb & E0 & E1 & Hk). sysret_cbn.
  pose proof (ld2_range m' (sp - 10) Hb) as R0. pose proof (ld2_range m' (sp - 2) Hb) as R1.
  replace (sp - 16 + 6) with (sp - 10) in * by lia. replace (sp - 16 + 14) with (sp - 2) in * by lia.
  rewrite E0 in R0. rewrite E1 in R1.
  destruct (poll_post c' 0 b sp q 2 (sp - 16) e f 0 k' l m n text base m' r r0 r1) as (a3 & c3 & i3 & z3 & t3 & Hrun3 & -> & -> & Ra3); try lia; try assumption.
  assert (Hsame : forall x, ~ (sp - 16 <= x < sp) -> m' x = mem x) by (intros; rewrite Hk by lia; apply Hps; lia).
  assert (Hv88 : ld 8 m' (text - 88) = ld 8 mem (text - 88)) by (apply ld_ext; intros; apply Hsame; lia).
  change (2 ^ 64) with 18446744073709551616 in *.
  destruct (after_poll r r0 r1) as [v|st] eqn:Ea.
  - eexists. split; [eapply ct_trans; [exact Hrun3|apply resume_leave; lia]|]. clear Hrun3. resumed_facts. exact Logic.I.
  - assert (Rst : st = 10).
    { unfold after_poll in Ea. destruct (0 <? r); [destruct (negb _); [discriminate|]; destruct (negb _); [inversion Ea; reflexivity|]; destruct (negb _); [inversion Ea; reflexivity|discriminate]|].
      destruct (_ || _); [discriminate|inversion Ea; reflexivity]. }
    subst st.
    eapply exits_via; [exact Hrun3|reflexivity|apply exits].
    + clear Hrun3. imp.
    + reflexivity.
    + reflexivity.
Qed.
