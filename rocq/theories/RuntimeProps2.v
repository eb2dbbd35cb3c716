(* RuntimeProps2.v: memory, random and I/O functions of runtime/loader/x86_64/runtime.S. *)
From Verif Require Import RuntimeSpec AsmProofs RuntimeTimeProofs RuntimeExitProofs RuntimeFunProofs RuntimeFun2Proofs
  RuntimeIoProofs RuntimeIo2Proofs RuntimeDebugProofs RuntimePollProofs RuntimeProps.
From Verif Require ExitStatus.
From Coq Require Import Lia ZArith List Bool.
Import ListNotations.
Local Open Scope Z_scope.

(** * C100: memory size *)

Theorem memory_size_given : forall s sp text vars,
  imported s sp text vars -> pc s = L_current_memory -> resumes s sp text vars (s_pages (mm s) vars) [] no_more.
Proof. exact current_memory_ok. Qed.
Print Assumptions memory_size_given.
(* Beyond the limit: result is -1, nothing changes *)
Theorem grow_refused : forall s sp text vars inc,
  imported s sp text vars -> pc s = L_grow_memory -> rget rax (rg s) mod 2 ^ 32 = inc ->
  v_grow_limit (mm s) text < 2 ^ 32 -> v_grow_limit (mm s) text < s_pages (mm s) vars + inc ->
  resumes s sp text vars (2 ^ 32 - 1) [] no_more.
Proof. exact grow_oom. Qed.
Print Assumptions grow_refused.
(* Within the limit: exactly the new pages are made accessible, the old size is the result, and the size variable is
   changed after that *)
Theorem grow_granted_partial : forall s sp text vars inc,
  imported s sp text vars -> pc s = L_grow_memory -> rget rax (rg s) mod 2 ^ 32 = inc -> 0 < inc ->
  s_pages (mm s) vars + inc <= v_grow_limit (mm s) text -> v_grow_limit (mm s) text <= 65536 -> memory_apart s sp text vars ->
  calls s SYS_mprotect (v_memory (mm s) text + s_pages (mm s) vars * 65536) (inc * 65536) 3 (fun s1 =>
    (forall c k, 0 <= c < 2 ^ 64 -> 0 <= k < 2 ^ 64 ->
       resumes (sysret s1 0 c k (mm s1)) sp text vars (s_pages (mm s) vars) [(4, 4)]
         (fun s2 => s_pages (mm s2) vars = s_pages (mm s) vars + inc /\ rget rbx (rg s2) = rget rbx (rg s))) /\
    (forall r c k, -4095 <= r < 0 -> 0 <= c < 2 ^ 64 -> 0 <= k < 2 ^ 64 ->
       exits_with (sysret s1 r c k (mm s1)) sp text vars (v_memory (mm s) text + s_pages (mm s) vars * 65536))).
Proof. exact grow_done. Qed.
Print Assumptions grow_granted_partial.
Theorem grow_by_zero : forall s sp text vars,
  imported s sp text vars -> pc s = L_grow_memory -> rget rax (rg s) mod 2 ^ 32 = 0 ->
  s_pages (mm s) vars <= v_grow_limit (mm s) text < 2 ^ 32 ->
  resumes s sp text vars (s_pages (mm s) vars) [(4, 4)] (fun s2 => s_pages (mm s2) vars = s_pages (mm s) vars).
Proof. exact grow_zero. Qed.
Print Assumptions grow_by_zero.
(* When mprotect fails the exit status should tell that (7).  It's the low byte of a page-aligned address, which is zero:
   the program seems to have returned successfully. *)
Theorem grow_failure_status_refuted : forall addr, addr mod 256 = 0 ->
  ExitStatus.exited_status addr = ExitStatus.exited_status 0 /\ ExitStatus.exited_status addr <> ExitStatus.exited_status 7.
Proof. intros addr H. unfold ExitStatus.exited_status. rewrite H. split; [reflexivity|discriminate]. Qed.
Print Assumptions grow_failure_status_refuted.
Example grow_example : let s := ex_cpu L_grow_memory 3 (65536 + 9984) in
  imported s 131072 2097152 65536 /\ memory_apart s 131072 2097152 65536 /\ rget rax (rg s) mod 2 ^ 32 = 3 /\
  s_pages (mm s) 65536 = 2 /\ v_grow_limit (mm s) 2097152 = 16 /\
  (v_memory (mm s) 2097152 + s_pages (mm s) 65536 * 65536) mod 256 = 0.
Proof. cbv zeta. destruct (a_process L_grow_memory 3 (65536 + 9984) ltac:(lia) ltac:(left; reflexivity)) as (H1 & H2 & _). split; [exact H1|]. split; [exact H2|]. vm_compute. repeat split. Qed.
Example grow_refused_example : let s := ex_cpu L_grow_memory 15 (65536 + 9984) in
  imported s 131072 2097152 65536 /\ v_grow_limit (mm s) 2097152 < s_pages (mm s) 65536 + 15.
Proof. cbv zeta. destruct (a_process L_grow_memory 15 (65536 + 9984) ltac:(lia) ltac:(left; reflexivity)) as (H1 & _). split; [exact H1|]. vm_compute. reflexivity. Qed.

(** * C101: random bytes *)

Theorem random_given : forall s sp text vars,
  imported s sp text vars -> pc s = L_rt_random -> 1 <= s_random_avail (mm s) vars <= 16 ->
  resumes s sp text vars (v_random (mm s) text (s_random_avail (mm s) vars - 1)) [(16, 4)]
    (fun s2 => s_random_avail (mm s2) vars = s_random_avail (mm s) vars - 1).
Proof. exact random_some. Qed.
Print Assumptions random_given.
Theorem random_exhausted : forall s sp text vars,
  imported s sp text vars -> pc s = L_rt_random -> s_random_avail (mm s) vars = 0 \/ 2 ^ 31 <= s_random_avail (mm s) vars ->
  resumes s sp text vars (2 ^ 32 - 1) [] no_more.
Proof. exact random_none. Qed.
Print Assumptions random_exhausted.
Example random_example : s_random_avail ex_mem 65536 = 8 /\ v_random ex_mem 2097152 7 = 17 /\ v_random ex_mem 2097152 0 = 136.
Proof. vm_compute. repeat split. Qed.

(** * C102: input, output, debug output *)

(* Nothing to do: no system call, result 0 *)
Theorem io_of_nothing : forall fn s sp text vars,
  imported s sp text vars -> pc s = io_pc fn -> memory_apart s sp text vars -> arg2 (mm s) sp = 0 ->
  resumes s sp text vars 0 [] no_more.
Proof. exact io_nothing. Qed.
Print Assumptions io_of_nothing.
(* The buffer isn't within memory: the process exits as if it had accessed memory out of bounds *)
Theorem io_out_of_bounds : forall fn s sp text vars,
  imported s sp text vars -> pc s = io_pc fn -> memory_apart s sp text vars -> 0 < arg2 (mm s) sp ->
  memory_size (mm s) vars < arg1 (mm s) sp + arg2 (mm s) sp ->
  exits_with s sp text vars (ExitStatus.exit_code ExitStatus.X86_64 ExitStatus.OutOfBounds).
Proof. exact io_outside. Qed.
Print Assumptions io_out_of_bounds.
(* The buffer is within memory: one system call for exactly that buffer *)
Theorem io_within_bounds : forall fn s sp text vars,
  fn <> Debug -> imported s sp text vars -> pc s = io_pc fn -> memory_apart s sp text vars -> 0 < arg2 (mm s) sp ->
  arg1 (mm s) sp + arg2 (mm s) sp <= memory_size (mm s) vars ->
  calls s (io_nr fn) (io_fd fn) (v_memory (mm s) text + arg1 (mm s) sp) (arg2 (mm s) sp) (fun s1 =>
    mm s1 = mm s /\ rget rbx (rg s1) = rget rbx (rg s) /\
    forall r c k m', 0 <= c < 2 ^ 64 -> 0 <= k < 2 ^ 64 -> -4095 <= r <= arg2 (mm s) sp ->
      kernel_stored (mm s1) m' (v_memory (mm s) text + arg1 (mm s) sp) (arg2 (mm s) sp) ->
      match after_io fn r with
      | inl v => resumes (sysret s1 r c k m') sp text vars v [] no_more
      | inr st => exits_with (sysret s1 r c k m') sp text vars st
      end).
Proof. exact io_ok. Qed.
Print Assumptions io_within_bounds.
Theorem io_failure_statuses : forall r, r < 0 -> r <> -11 -> r <> -4 ->
  after_io Read r = inr (ExitStatus.exit_code ExitStatus.X86_64 ExitStatus.ReadFailed) /\
  after_io Write r = inr (ExitStatus.exit_code ExitStatus.X86_64 ExitStatus.WriteFailed).
Proof.
  intros r H1 H2 H3. unfold after_io.
  replace (0 <=? r) with false by (symmetry; apply Z.leb_gt; lia). replace (0 <? r) with false by (symmetry; apply Z.ltb_ge; lia).
  replace (r =? -11) with false by (symmetry; apply Z.eqb_neq; lia). replace (r =? -4) with false by (symmetry; apply Z.eqb_neq; lia).
  split; reflexivity.
Qed.
Print Assumptions io_failure_statuses.
Example io_example : let s := ex_cpu L_rt_read 0 (65536 + 9984) in
  imported s 131072 2097152 65536 /\ memory_apart s 131072 2097152 65536 /\ pc s = io_pc Read /\ arg1 (mm s) 131072 = 100 /\ arg2 (mm s) 131072 = 6 /\
  memory_size (mm s) 65536 = 131072.
Proof. cbv zeta. destruct (a_process L_rt_read 0 (65536 + 9984) ltac:(lia) ltac:(left; reflexivity)) as (H1 & H2 & _). split; [exact H1|]. split; [exact H2|]. vm_compute. repeat split. Qed.

(* Debug output: an execution with its write calls *)
Inductive prints : cpu -> list (Z * Z * Z) -> event -> Prop :=
| pr_end s e : comes_to (More s) e -> prints s [] e
| pr_write s s1 a n r c k t e :
    comes_to (More s) (AtSyscall s1) -> rget rax (rg s1) = SYS_write -> rget rdi (rg s1) = 2 -> rget rsi (rg s1) = a -> rget rdx (rg s1) = n ->
    0 <= c < 2 ^ 64 -> 0 <= k < 2 ^ 64 -> prints (sysret s1 r c k (mm s1)) t e -> prints s ((a, n, r) :: t) e.
(* Results of write calls until n bytes have been written: a part of the rest, or interruption (-4) *)
Inductive parts : Z -> list Z -> Prop :=
| pa_last n : 0 < n -> parts n [n]
| pa_part n r t : 0 < r < n -> parts (n - r) t -> parts n (r :: t)
| pa_intr n t : 0 < n -> parts n t -> parts n (-4 :: t).
(* The calls that they mean: the buffer in order, without gaps or repetition *)
Fixpoint covering (a n : Z) (rs : list Z) : list (Z * Z * Z) :=
  match rs with
  | [] => []
  | r :: t => (a, n, r) :: (if r <? 0 then covering a n t else covering (a + r) (n - r) t)
  end.
Lemma prints_from s s2 l e : comes_to (More s) (More s2) -> prints s2 l e -> prints s l e.
Proof. intros H HP. destruct HP as [s0 e0 H0|s0 s1 a n r c k t e0 H0]; [apply pr_end|apply (pr_write s s1 a n r c k)]; try assumption; eapply ct_trans; eassumption. Qed.
Theorem debug_prints_everything : forall rs s sp text vars,
  imported s sp text vars -> pc s = L_rt_debug -> memory_apart s sp text vars ->
  arg1 (mm s) sp + arg2 (mm s) sp <= memory_size (mm s) vars -> parts (arg2 (mm s) sp) rs ->
  exists s2, prints s (covering (v_memory (mm s) text + arg1 (mm s) sp) (arg2 (mm s) sp) rs) (Outside (text + 16) s2) /\
    rget rax (rg s2) = 0 /\ rget rsp (rg s2) = sp /\ rget r15 (rg s2) = text /\ rget rbx (rg s2) = rget rbx (rg s) /\
    (forall x, ~ (vars + 64 <= x < sp + 20) -> mm s2 x = mm s x).
Proof.
  intros rs. induction rs as [|r t IH]; intros s sp text vars H Hpc HM HO HP; [inversion HP|].
  assert (HN : 0 < arg2 (mm s) sp) by (inversion HP; subst; lia).
  assert (Rn : arg2 (mm s) sp < 4294967296).
  { assert (0 <= memory_size (mm s) vars < 2 ^ 32) by (apply Z.mod_pos_bound; reflexivity). change (2 ^ 32) with 4294967296 in *.
    pose proof (ld4_range (mm s) (sp + 16) (im_mem _ _ _ _ H)). unfold arg1 in *. lia. }
  pose proof H as H'. destruct H' as [_ _ _ _ _ [V1 [V2 _]] Ap _ _].
  destruct (debug_ok s sp text vars H Hpc HM HN HO) as (s1 & Hrun & Hax & Hdi & Hsi & Hdx & Hmm & Hbx & Hret).
  assert (Hr : -4095 <= r <= arg2 (mm s) sp) by (inversion HP; subst; lia).
  specialize (Hret r 0 0 ltac:(lia) ltac:(lia) Hr). cbv zeta in Hret.
  assert (Hagain : forall A N, debug_again (sysret s1 r 0 0 (mm s1)) (mm s) sp text vars A N -> parts N t -> A + N = arg1 (mm s) sp + arg2 (mm s) sp ->
    exists s2, prints (sysret s1 r 0 0 (mm s1)) (covering (v_memory (mm s) text + A) N t) (Outside (text + 16) s2) /\
      rget rax (rg s2) = 0 /\ rget rsp (rg s2) = sp /\ rget r15 (rg s2) = text /\ rget rbx (rg s2) = rget rbx (rg s) /\
      (forall x, ~ (vars + 64 <= x < sp + 20) -> mm s2 x = mm s x)).
  { intros A N (s3 & Hr3 & Hpc3 & Hi3 & HM3 & HA3 & HN3 & Hb3 & Hm3) HPt HE.
    assert (Ep : s_pages (mm s3) vars = s_pages (mm s) vars) by (apply ld_ext; intros x Hx; apply Hm3; change (Z.of_nat 4) with 4 in Hx; lia).
    assert (Em : v_memory (mm s3) text = v_memory (mm s) text) by (apply ld_ext; intros x Hx; apply Hm3; change (Z.of_nat 8) with 8 in Hx; lia).
    destruct (IH s3 sp text vars Hi3 Hpc3 HM3) as (s2 & HP2 & R1 & R2 & R3 & R4 & R5).
    { unfold memory_size. rewrite Ep, HA3, HN3, HE. exact HO. }
    { rewrite HN3. exact HPt. }
    rewrite HA3, HN3, Em in HP2. exists s2. split; [eapply prints_from; eassumption|].
    split; [exact R1|]. split; [exact R2|]. split; [exact R3|]. split.
    { rewrite R4, Hb3. cbn [sysret rg]. rewrite <- Hbx. destruct (rg s1). reflexivity. }
    intros x Hx. rewrite R5 by exact Hx. apply Hm3. lia. }
  cbn [covering].
  assert (Hpr : forall t0 e, prints (sysret s1 r 0 0 (mm s1)) t0 e -> prints s ((v_memory (mm s) text + arg1 (mm s) sp, arg2 (mm s) sp, r) :: t0) e).
  { intros t0 e Hp. eapply (pr_write s s1 _ _ r 0 0); try eassumption; lia. }
  inversion HP as [n Hn E1 E2|n r0 t0 Hr0 HPt E1 E2|n t0 Hn HPt E1 E2]; subst n.
  - (* the rest at once *) subst r t. replace (0 <? arg2 (mm s) sp) with true in Hret by (symmetry; apply Z.ltb_lt; lia).
    replace (arg2 (mm s) sp - arg2 (mm s) sp =? 0) with true in Hret by (symmetry; apply Z.eqb_eq; lia).
    destruct Hret as (s2 & Hrun2 & [Q1 Q2 Q3 Q4 Q5] & _). exists s2. split.
    { cbn [covering]. replace (arg2 (mm s) sp <? 0) with false by (symmetry; apply Z.ltb_ge; lia). apply Hpr. apply pr_end. exact Hrun2. }
    split; [exact Q1|]. split; [exact Q2|]. split; [exact Q3|]. split.
    { rewrite Q4. cbn [limit_after sysret rg]. rewrite <- Hbx. destruct (rg s1). reflexivity. }
    intros x Hx. rewrite Q5; [cbn [sysret mm]; rewrite Hmm; reflexivity|lia|].
    intros f n Hin. destruct Hin as [E|[E|[]]]; injection E as <- <-; lia.
  - (* a part *) subst r0 t0. replace (0 <? r) with true in Hret by (symmetry; apply Z.ltb_lt; lia).
    replace (arg2 (mm s) sp - r =? 0) with false in Hret by (symmetry; apply Z.eqb_neq; lia).
    replace (r <? 0) with false by (symmetry; apply Z.ltb_ge; lia).
    destruct (Hagain _ _ Hret HPt ltac:(lia)) as (s2 & HP2 & HR). exists s2. split; [|exact HR].
    apply Hpr. rewrite Z.add_assoc in HP2. exact HP2.
  - (* interrupted *) subst r t0. change (0 <? -4) with false in Hret. change (-4 =? 0) with false in Hret. change (-4 =? -4) with true in Hret. cbn match in Hret.
    change (-4 <? 0) with true. cbn match.
    destruct (Hagain _ _ Hret HPt ltac:(lia)) as (s2 & HP2 & HR). exists s2. split; [|exact HR]. apply Hpr. exact HP2.
Qed.
Print Assumptions debug_prints_everything.
Example debug_example : parts 6 [2; -4; 3; 1] /\ covering 100 6 [2; -4; 3; 1] = [(100, 6, 2); (102, 4, -4); (102, 4, 3); (105, 1, 1)].
Proof. split; [|reflexivity]. repeat first [apply pa_intr; [lia|] | apply (pa_last 1); lia | apply pa_part; [lia|cbn [Z.sub Z.add Z.opp Z.pos_sub Pos.pred_double]]]. Qed.

(** * C103: poll *)

Theorem poll_waits : forall s sp text vars,
  imported s sp text vars -> pc s = L_rt_poll ->
  calls s SYS_ppoll (sp - 16) 2 0 (fun s1 =>
    rget r10 (rg s1) = 0 /\ rget rbx (rg s1) = rget rbx (rg s) /\ same_except (mm s) (mm s1) vars sp [] /\ (forall x, 0 <= mm s1 x < 256) /\
    ld 4 (mm s1) (sp - 16) = 0 /\ ld 2 (mm s1) (sp - 12) = arg1 (mm s) sp mod 2 ^ 16 /\
    ld 4 (mm s1) (sp - 8) = 1 /\ ld 2 (mm s1) (sp - 4) = arg2 (mm s) sp mod 2 ^ 16 /\
    forall r c k m' r0 r1, 0 <= c < 2 ^ 64 -> 0 <= k < 2 ^ 64 -> -4095 <= r <= 2 ->
      kernel_revents (mm s1) m' (sp - 16) r0 r1 ->
      match after_poll r r0 r1 with
      | inl v => resumes (sysret s1 r c k m') sp text vars v [] no_more
      | inr st => exits_with (sysret s1 r c k m') sp text vars st
      end).
Proof. exact poll_ok. Qed.
Print Assumptions poll_waits.
(* A program that has been told to suspend should not wait for input.  But it does, if the request came before the system
   call: no timeout (rdx), no change of signal mask (r10), and the limit register says that it's to be suspended. *)
Theorem suspended_poll_waits_refuted : forall s sp text vars,
  imported s sp text vars -> pc s = L_rt_poll -> Z.land (rget rbx (rg s)) suspend_mask = suspend_mask ->
  exists s1, comes_to (More s) (AtSyscall s1) /\ rget rax (rg s1) = SYS_ppoll /\ rget rdx (rg s1) = 0 /\ rget r10 (rg s1) = 0 /\
    Z.land (rget rbx (rg s1)) suspend_mask = suspend_mask.
Proof.
  intros s sp text vars H Hpc Hs. destruct (poll_ok s sp text vars H Hpc) as (s1 & Hr & H1 & _ & _ & H4 & H5 & H6 & _).
  exists s1. rewrite H6. auto.
Qed.
Print Assumptions suspended_poll_waits_refuted.
Example poll_example : let s := ex_cpu L_rt_poll 0 (Z.lor (65536 + 9984) suspend_mask) in
  imported s 131072 2097152 65536 /\ Z.land (rget rbx (rg s)) suspend_mask = suspend_mask /\
  after_poll 1 1 4 = inl 5 /\ after_poll 1 8 0 = inr 10 /\ after_poll (-4) 1 1 = inl 0 /\ after_poll 1 16 4 = inl 0.
Proof. cbv zeta. split; [apply a_process; [lia|right; reflexivity]|]. vm_compute. repeat split. Qed.
