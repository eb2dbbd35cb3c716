(* RuntimeIoProofs.v: reading, writing. *)
From Verif Require Import RuntimeSpec AsmProofs RuntimeTimeProofs RuntimeExitProofs RuntimeFunProofs RuntimeFun2Proofs.
From Coq Require Import Lia ZArith Znumtheory List Bool.
Import ListNotations.
Local Open Scope Z_scope.


Lemma size_eq P : 0 <= P < 4294967296 -> Z.shiftl P 16 mod card 4 = (P * 65536) mod 2 ^ 32.
Proof. intros. rewrite shiftl16. reflexivity. Qed.
Lemma size_range m vars : 0 <= memory_size m vars < 4294967296.
Proof. apply Z.mod_pos_bound. reflexivity. Qed.

Ltac io_start H :=
  unfold memory_apart in *; unfold memory_size, s_pages, v_memory, arg1, arg2 in *; regs_cbn_in;
  change (2 ^ 32) with 4294967296 in *; change (2 ^ 47) with 140737488355328 in *;
  match goal with Hmem : forall a, 0 <= ?mem a < 256, Hlim : Z.land _ _ = ?vars + 9984, Hap : _ <= ?vars \/ ?sp + 24 <= ?text - 88 |- _ =>
    let Rp := fresh "Rp" in let RM := fresh "RM" in let RA := fresh "RA" in let RN := fresh "RN" in
    let EP := fresh "EP" in let EM := fresh "EM" in let EA := fresh "EA" in let EN := fresh "EN" in
    pose proof (ld4_range mem (vars + 4) Hmem) as Rp; pose proof (ld8_range mem (text - 32) Hmem) as RM;
    pose proof (ld4_range mem (sp + 16) Hmem) as RA; pose proof (ld4_range mem (sp + 8) Hmem) as RN;
    remember (ld 4 mem (vars + 4)) as P eqn:EP; symmetry in EP;
    remember (ld 8 mem (text - 32)) as M eqn:EM; symmetry in EM;
    remember (ld 4 mem (sp + 16)) as A eqn:EA; symmetry in EA;
    remember (ld 4 mem (sp + 8)) as N eqn:EN; symmetry in EN;
    let ES := fresh "ES" in let RS := fresh "RS" in
    assert (ES : Z.shiftl P 16 mod card 4 = (P * 65536) mod 4294967296) by (apply size_eq; lia);
    assert (RS : 0 <= (P * 65536) mod 4294967296 < 4294967296) by (apply Z.mod_pos_bound; lia);
    remember ((P * 65536) mod 4294967296) as S eqn:HS; clear HS
  end.

Lemma io_pre fn a c d b sp q i j e f h k l m n text z t base mem vars P M A N S :
  0 <= vars -> vars + 512 <= sp -> sp + 24 <= 140737488355328 -> 4096 <= text < 140737488355328 ->
  0 <= b < 18446744073709551616 -> Z.land b 13835058055282163710 = vars + 9984 ->
  ld 4 mem (vars + 4) = P -> 0 <= P < 4294967296 ->
  ld 8 mem (text - 32) = M -> 0 <= M < 140737488355328 -> ld 4 mem (sp + 16) = A -> 0 <= A < 4294967296 ->
  ld 4 mem (sp + 8) = N -> 0 <= N < 4294967296 -> Z.shiftl P 16 mod card 4 = S -> 0 <= S < 4294967296 ->
  exists z' t',
  comes_to (More (Cpu (Regs a c d b sp q i j e f h k l m n text) z t (io_pc fn) base mem))
    (More (Cpu (Regs 13835058055282163710 vars N b sp q A j e f h k l (S + M) M text) z' t' (io_pc fn + 11) base mem)) /\ z' = Some (N =? 0).
Proof.
  intros Hv Hs Hs2 Ht Rb Hlim EP Rp EM RM EA RA EN RN ES RS.
  do 2 eexists. destruct fn; cbn [io_pc Nat.add].
  - split; [run_to 180%nat ltac:(rewrite ?Hlim, ?EP, ?EM, ?EA, ?EN, ?ES, ?Z.land_diag); apply ct_refl|reflexivity].
  - split; [run_to 209%nat ltac:(rewrite ?Hlim, ?EP, ?EM, ?EA, ?EN, ?ES, ?Z.land_diag); apply ct_refl|reflexivity].
  - split; [run_to 318%nat ltac:(rewrite ?Hlim, ?EP, ?EM, ?EA, ?EN, ?ES, ?Z.land_diag); apply ct_refl|reflexivity].
Qed.

(* After the test of the length *)
Lemma io_mid fn b sp q j e f h k l text z t base mem vars M A N S :
  0 <= vars -> sp + 24 <= 140737488355328 -> 
  0 <= M -> M + 4294967296 <= 140737488355328 -> 0 <= A < 4294967296 -> 0 < N < 4294967296 -> 0 <= S < 4294967296 ->
  z = Some (N =? 0) ->
  exists a' c' z' t',
  comes_to (More (Cpu (Regs 13835058055282163710 vars N b sp q A j e f h k l (S + M) M text) z t (io_pc fn + 11) base mem))
    (if S <? A + N
     then More (Cpu (Regs a' c' N b sp q (A + M) 105 e f h (A + M + N) l (S + M) M text) z' t' L_Lexit base mem)
     else AtSyscall (Cpu (Regs a' c' N b sp q (A + M) (io_fd fn) e f h (A + M + N) l (S + M) M text) z' t' (io_pc fn + 21) base mem)) /\
  c' = vars /\ (a' = if S <? A + N then 13835058055282163710 else io_nr fn).
Proof.
  intros Hv Hs2 HM HM2 RA RN RS ->.
  assert (EN : (N =? 0) = false) by (apply Z.eqb_neq; lia). rewrite EN.
  assert (E1 : alu_lt Sub 8 (S + M) (A + M + N) = (S <? A + N)).
  { rewrite alu_lt_sub8 by lia. destruct (S <? A + N) eqn:E; [apply Z.ltb_lt; apply Z.ltb_lt in E; lia|apply Z.ltb_ge; apply Z.ltb_ge in E; lia]. }
  assert (E2 : alu_lt Sub 8 (A + M + N) (A + M) = false) by (rewrite alu_lt_sub8 by lia; apply Z.ltb_ge; lia).
  destruct (S <? A + N) eqn:E.
  - do 4 eexists. destruct fn; cbn [io_pc Nat.add];
      (split; [run_to 291%nat ltac:(rewrite ?E1, ?E2, ?EN); apply ct_refl|split; reflexivity]).
  - exists (io_nr fn). do 3 eexists.
    destruct fn; cbn [io_pc Nat.add io_nr io_fd]; (split; [|split; reflexivity]).
    + run_to 189%nat ltac:(rewrite ?E1, ?E2, ?EN); fetch; red_ins; apply ct_refl.
    + run_to 218%nat ltac:(rewrite ?E1, ?E2, ?EN); fetch; red_ins; apply ct_refl.
    + run_to 327%nat ltac:(rewrite ?E1, ?E2, ?EN); fetch; red_ins; apply ct_refl.
Qed.

Lemma u64_neg r : -4095 <= r < 0 -> u64 r = r + 18446744073709551616.
Proof.
  intros Rr. unfold u64. change (2 ^ 64) with 18446744073709551616. symmetry. apply (Z.mod_unique_pos _ _ (-1)); lia.
Qed.
Lemma u64_neg4 r : -4095 <= r < 0 -> u64 r mod card 4 = r + 4294967296.
Proof.
  intros Rr. rewrite u64_neg by assumption. change (card 4) with 4294967296. symmetry.
  apply (Z.mod_unique_pos _ _ 4294967295); lia.
Qed.
Lemma sgn8_res r : -4095 <= r < 4294967296 -> (sgn 8 (u64 r) <? 0) = (r <? 0).
Proof.
  intros Rr. unfold sgn. change (card 8 / 2) with 9223372036854775808. change (card 8) with 18446744073709551616.
  destruct (r <? 0) eqn:E; [apply Z.ltb_lt in E|apply Z.ltb_ge in E].
  - rewrite u64_neg by lia. replace (_ <? 9223372036854775808) with false by (symmetry; apply Z.ltb_ge; lia). apply Z.ltb_lt. lia.
  - rewrite u64_small by lia. replace (_ <? 9223372036854775808) with true by (symmetry; apply Z.ltb_lt; lia). apply Z.ltb_ge. lia.
Qed.
Lemma zero_res r : -4095 <= r < 4294967296 -> (u64 r =? 0) = (r =? 0).
Proof.
  intros Rr. destruct (Z_lt_le_dec r 0).
  - rewrite u64_neg by lia. destruct (r =? 0) eqn:E; [apply Z.eqb_eq in E; lia|apply Z.eqb_neq; lia].
  - rewrite u64_small by lia. reflexivity.
Qed.
Lemma errno_res r v : -4095 <= r < 0 -> 0 <= v < 4095 -> (u64 r mod card 4 =? 4294967296 - v) = (r =? - v).
Proof.
  intros Rr Rv. rewrite u64_neg4 by assumption.
  destruct (r =? - v) eqn:E; [apply Z.eqb_eq in E; apply Z.eqb_eq; lia|apply Z.eqb_neq in E; apply Z.eqb_neq; lia].
Qed.

Lemma io_post fn c d b sp q i j e f h k l m n text base mem r :
  fn <> Debug -> -4095 <= r < 4294967296 -> 512 <= sp < 140737488355328 ->
  exists a' j' z' t',
  comes_to (More (Cpu (Regs (u64 r) c d b sp q i j e f h k l m n text) None None (io_pc fn + 21) base mem))
    (match after_io fn r with
     | inl v => More (Cpu (Regs v c d b sp q i j e f h k l m n text) z' t' L_Lresume base mem)
     | inr st => More (Cpu (Regs a' c d b sp q i st e f h k l m n text) z' t' L_Lexit base mem)
     end) /\ a' = u64 r /\ j' = j.
Proof.
  intros Hfn Rr Rsp. pose proof (sgn8_res r Rr) as ELT. pose proof (zero_res r Rr) as EZ.
  assert (EA : r < 0 -> (u64 r mod card 4 =? 4294967285) = (r =? -11)) by (intros; apply (errno_res r 11); lia).
  assert (EI : r < 0 -> (u64 r mod card 4 =? 4294967292) = (r =? -4)) by (intros; apply (errno_res r 4); lia).
  assert (E0 : r = 0 -> u64 r = 0) by (intros ->; reflexivity).
  assert (EP : 0 <= r -> u64 r = r) by (intros; apply u64_small; lia).
  pose proof (u64_range r) as Ru.
  assert (Ediag : Z.land (u64 r) (u64 r) = u64 r) by apply Z.land_diag.
  exists (u64 r), j.
  unfold after_io. destruct fn; [| |congruence]; cbn [io_pc Nat.add].
  - destruct (0 <=? r) eqn:E1; [apply Z.leb_le in E1|apply Z.leb_gt in E1].
    + assert (Elt : (sgn 8 (u64 r) <? 0) = false) by (rewrite ELT; apply Z.ltb_ge; lia).
      rewrite (EP E1) in *. do 2 eexists. split; [|split; reflexivity].
      run_to 126%nat ltac:(rewrite ?Z.land_diag, ?Elt). apply ct_refl.
    + assert (Elt : (sgn 8 (u64 r) <? 0) = true) by (rewrite ELT; apply Z.ltb_lt; lia).
      specialize (EA E1). specialize (EI E1). clear ELT EZ E0 EP. remember (u64 r) as U eqn:EU. clear EU.
      destruct (r =? -11) eqn:Ea; [|destruct (r =? -4) eqn:Ei]; cbn [orb]; do 2 eexists; (split; [|split; reflexivity]).
      * run_to 126%nat ltac:(rewrite ?Ediag, ?Elt, ?EA, ?EI). apply ct_refl.
      * run_to 126%nat ltac:(rewrite ?Ediag, ?Elt, ?EA, ?EI). apply ct_refl.
      * run_to 291%nat ltac:(rewrite ?Ediag, ?Elt, ?EA, ?EI). apply ct_refl.
  - destruct (0 <? r) eqn:E1; [apply Z.ltb_lt in E1|apply Z.ltb_ge in E1].
    + assert (Elt : (sgn 8 (u64 r) <? 0) = false) by (rewrite ELT; apply Z.ltb_ge; lia).
      assert (Ez : (u64 r =? 0) = false) by (rewrite EZ; apply Z.eqb_neq; lia).
      rewrite (EP ltac:(lia)) in *. do 2 eexists. split; [|split; reflexivity].
      run_to 126%nat ltac:(rewrite ?Z.land_diag, ?Elt, ?Ez). apply ct_refl.
    + destruct (Z.eq_dec r 0) as [->|Hnz].
      * cbn [Z.eqb orb]. change (u64 0) with 0. do 2 eexists. split; [|split; reflexivity].
        run_to 291%nat ltac:(try change (sgn 8 0 <? 0) with false; try change (0 =? 4294967285) with false; try change (0 =? 4294967292) with false). apply ct_refl.
      * assert (E2 : r < 0) by lia.
        assert (Elt : (sgn 8 (u64 r) <? 0) = true) by (rewrite ELT; apply Z.ltb_lt; lia).
        assert (Ez : (u64 r =? 0) = false) by (rewrite EZ; apply Z.eqb_neq; lia).
        specialize (EA E2). specialize (EI E2). clear ELT EZ E0 EP. remember (u64 r) as U eqn:EU. clear EU.
        destruct (r =? -11) eqn:Ea; [|destruct (r =? -4) eqn:Ei]; cbn [orb]; do 2 eexists; (split; [|split; reflexivity]).
        -- run_to 126%nat ltac:(rewrite ?Ediag, ?Elt, ?EA, ?EI, ?Ez). apply ct_refl.
        -- run_to 126%nat ltac:(rewrite ?Ediag, ?Elt, ?EA, ?EI, ?Ez). apply ct_refl.
        -- run_to 291%nat ltac:(rewrite ?Ediag, ?Elt, ?EA, ?EI, ?Ez). apply ct_refl.
Qed.
