(* RuntimeTimeProofs.v: .Ltime and .Lexit, executed. *)
From Verif Require Import RuntimeSpec AsmProofs.
From Coq Require Import Lia ZArith List Bool.
Import ListNotations.
Local Open Scope Z_scope.

Lemma ld8_range m a : (forall x, 0 <= m x < 256) -> 0 <= ld 8 m a < 18446744073709551616.
Proof. intros H. apply (ld_range 8 m H a). Qed.
Lemma ld4_range m a : (forall x, 0 <= m x < 256) -> 0 <= ld 4 m a < 4294967296.
Proof. intros H. apply (ld_range 4 m H a). Qed.

Lemma u64_range x : 0 <= u64 x < 18446744073709551616.
Proof. apply Z.mod_pos_bound. reflexivity. Qed.

Lemma lor_range_pow x y n : 0 <= n -> 0 <= x < 2 ^ n -> 0 <= y < 2 ^ n -> 0 <= Z.lor x y < 2 ^ n.
Proof.
  intros Hn Hx Hy. assert (0 <= Z.lor x y) by (apply Z.lor_nonneg; lia). split; [assumption|].
  destruct (Z.eq_dec (Z.lor x y) 0) as [->|Hz]; [lia|].
  apply Z.log2_lt_pow2; [lia|]. rewrite Z.log2_lor by lia.
  destruct (Z.eq_dec x 0) as [->|]; destruct (Z.eq_dec y 0) as [->|]; try rewrite Z.lor_0_r in Hz; try lia.
  - apply Z.max_lub_lt; [|apply Z.log2_lt_pow2; lia].
    change (Z.log2 0) with 0. destruct (Z.eq_dec n 0) as [->|]; lia.
  - apply Z.max_lub_lt; [apply Z.log2_lt_pow2; lia|].
    change (Z.log2 0) with 0. destruct (Z.eq_dec n 0) as [->|]; lia.
  - apply Z.max_lub_lt; apply Z.log2_lt_pow2; lia.
Qed.
Lemma lor_range x : 0 <= x < 18446744073709551616 -> 0 <= Z.lor x 4611686018427387905 < 18446744073709551616.
Proof. intros H. apply (lor_range_pow x 4611686018427387905 64); [lia|exact H|split; [discriminate|reflexivity]]. Qed.
Lemma land_le_r x y : 0 <= x -> 0 <= y -> Z.land x y <= y.
Proof.
  intros Hx Hy. apply Z.ldiff_le; [assumption|].
  rewrite Z.ldiff_land, <- Z.land_assoc, Z.land_lnot_diag. apply Z.land_0_r.
Qed.
Lemma lor2_range x : 0 <= x < 4294967296 -> 0 <= Z.lor x 2 < 4294967296.
Proof.
  intros H. split; [apply Z.lor_nonneg; lia|].
  destruct (Z.eq_dec (Z.lor x 2) 0) as [->|Hn]; [lia|].
  change 4294967296 with (2 ^ 32). apply Z.log2_lt_pow2; [assert (0 <= Z.lor x 2) by (apply Z.lor_nonneg; lia); lia|].
  rewrite Z.log2_lor by lia. apply Z.max_lub_lt; [|reflexivity].
  destruct (Z.eq_dec x 0) as [->|]; [reflexivity|]. apply Z.log2_lt_pow2; lia.
Qed.

Ltac same_tac :=
  let a := fresh "a" in let Hs := fresh "Hs" in let Hf := fresh "Hf" in
  intros a Hs Hf;
  repeat match goal with
  | Hf : forall f n, In (f, n) ((?x, ?y) :: ?tl) -> _ |- _ =>
      pose proof (Hf x y (or_introl eq_refl)); 
      let Hf' := fresh "Hf" in
      pose proof (fun f n (Hin : In (f, n) tl) => Hf f n (or_intror Hin)) as Hf'; clear Hf; rename Hf' into Hf
  end;
  repeat rewrite sto_other by lia; try reflexivity.

(* From .Ltime to the C function *)
Lemma time_call a c d b sp q i clk e f h k l m n text z t base mem vars cfun :
  0 <= vars -> vars + 64 + 240 <= sp -> sp + 24 <= 140737488355328 -> 4096 <= text < 140737488355328 ->
  text <= vars \/ sp <= text - 88 -> 0 <= base /\ base + 340 <= text - 88 ->
  0 <= b < 18446744073709551616 -> 0 <= clk < 4294967296 ->
  Z.land b 13835058055282163710 = vars + 9984 -> (forall x, 0 <= mem x < 256) ->
  ld 8 mem (text - 88) = cfun -> 0 <= cfun < 18446744073709551616 -> ~ (base <= cfun < base + 340) ->
  exists a' z' t' mem',
  comes_to (More (Cpu (Regs a c d b sp q i clk e f h k l m n text) z t L_Ltime base mem))
    (Outside cfun (Cpu (Regs a' 0 d b (sp - 40) q (sp - 16) clk e f h k clk m n text) z' t' 132 base mem')) /\
  ld 8 mem' (sp - 40) = base + 242 /\ ld 8 mem' (sp - 32) = text /\ ld 8 mem' (sp - 24) = b /\
  ld 4 mem' (vars + 20) = Z.lor (ld 4 mem (vars + 20)) 2 /\
  (forall x, 0 <= mem' x < 256) /\ same_except mem mem' vars sp [(20, 4)].
Proof.
  intros Hv Hs Hs2 Ht Hap Hb Rb Rclk Hlim Hmem Hc Rc Hout.
  pose proof (lor2_range _ (ld4_range mem (vars + 20) Hmem)) as Rs.
  do 4 eexists. split; [|].
  - run_with ltac:(rewrite ?Hlim, ?Hc). fetch; red_ins; norm. rewrite goto_out by (regs_cbn; exact Hout). apply ct_refl.
  - norm. repeat split; try reflexivity.
    + apply sto_range; repeat apply sto_range; assumption.
    + apply sto_range; repeat apply sto_range; assumption.
    + same_tac.
Qed.

Definition rbx_after (rbx0 susp : Z) : Z := if Z.land susp 1 =? 0 then rbx0 else Z.lor rbx0 suspend_mask.

(* The wag object ABI's resume routine is entered *)
Lemma resume_leave a c d b p q i j e f h k l m n o z t base mem :
  88 <= o < 140737488355328 -> 0 <= base /\ base + 340 <= o - 88 -> 8 <= p < 140737488355328 ->
  comes_to (More (Cpu (Regs a c d b p q i j e f h k l m n o) z t L_Lresume base mem))
    (Outside (o + 16) (Cpu (Regs a 0 d b p q i j e f h k l m n o) (Some true) (Some (alu_lt Xor 4 ((o + 16) mod card 4) ((o + 16) mod card 4))) 132 base
                           (sto 8 (sto 8 mem (p - 8) (base + 128)) (p - 8) (o + 16)))).
Proof.
  intros Ho Hb Hp. run_with idtac.
  fetch; red_ins. rewrite (u64_small (p - 8 + 8)) by lia. norm.
  rewrite goto_out by (regs_cbn; change (Z.of_nat (length runtime)) with 340; lia).
  replace (p - 8 + 8) with p by lia. apply ct_refl.
Qed.

(* The C function has returned: registers are restored, the suspend bits are taken *)
Lemma time_a a c d b0 sp q i j e f h k l m n o z t base mem vars text b sb :
  0 <= vars -> vars + 64 + 240 <= sp -> sp + 24 <= 140737488355328 ->
  0 <= a < 18446744073709551616 -> 0 <= b < 18446744073709551616 -> 0 <= sb < 4294967296 ->
  Z.land b 13835058055282163710 = vars + 9984 ->
  ld 8 mem (sp - 32) = text -> ld 8 mem (sp - 24) = b -> ld 4 mem (vars + 20) = sb ->
  exists a' c' z' t',
  comes_to (More (Cpu (Regs a c d b0 (sp - 32) q i j e f h k l m n o) z t 242 base mem))
    (More (Cpu (Regs a' c' d (rbx_after b sb) (sp - 16) q i j e f h k l (a mod card 4) n text) z' t' L_Lnot_suspended base
               (sto 4 mem (vars + 20) 0))).
Proof.
  intros Hv Hs Hs2 Ra Rb Rsb Hlim Ltext Lrbx Lsb. unfold rbx_after.
  destruct (Z.land sb 1 =? 0) eqn:Esb; do 4 eexists.
  - run_to 255%nat ltac:(rewrite ?Ltext, ?Lrbx, ?Hlim, ?Lsb, ?Esb). apply ct_refl.
  - run_to 255%nat ltac:(rewrite ?Ltext, ?Lrbx, ?Hlim, ?Lsb, ?Esb). apply ct_refl.
Qed.

(* Time is computed *)
Definition timestamp (sec nsec mask : Z) : Z := u64 (u64 (sec * 1000000000) + Z.land (nsec mod card 4) mask).
Definition clock_value (clk sec nsec mask tbase mono : Z) : Z :=
  if clk =? 6 then u64 (u64 (timestamp sec nsec mask - tbase) + mono) else timestamp sec nsec mask.
Lemma time_b a c d b sp q i j e f h k clk n text z t base mem vars sec nsec mask tbase mono :
  0 <= vars -> vars + 64 + 240 <= sp -> sp + 24 <= 140737488355328 -> 4096 <= text < 140737488355328 ->
  0 <= b < 18446744073709551616 -> 0 <= clk < 4294967296 ->
  Z.land b 13835058055282163710 = vars + 9984 ->
  ld 8 mem (sp - 16) = sec -> 0 <= sec < 18446744073709551616 -> ld 8 mem (sp - 8) = nsec -> 
  ld 4 mem (text - 72) = mask -> 0 <= mask < 4294967296 -> ld 8 mem (text - 80) = tbase -> 0 <= tbase < 18446744073709551616 ->
  ld 8 mem (vars + 8) = mono -> 0 <= mono < 18446744073709551616 ->
  exists c' d' j' h' k' z' t',
  comes_to (More (Cpu (Regs a c d b (sp - 16) q i j e f h k clk 0 n text) z t L_Lnot_suspended base mem))
    (More (Cpu (Regs (clock_value clk sec nsec mask tbase mono) c' d' b sp q i j' e f h' k' clk 0 n text) z' t' L_Lresume base mem)).
Proof.
  intros Hv Hs Hs2 Ht Rb Rclk Hlim Lsec Rsec Lnsec Lmask Rmask Lbase Rbase Lmono Rmono.
  unfold clock_value, timestamp.
  assert (Hand : 0 <= Z.land (nsec mod card 4) mask < 4294967296).
  { split; [apply Z.land_nonneg; left; apply card4_range|].
    apply (Z.le_lt_trans _ mask); [|lia]. apply land_le_r; [apply card4_range|lia]. }
  remember (Z.land (nsec mod card 4) mask) as A eqn:HA. symmetry in HA.
  remember (u64 (sec * 1000000000)) as T1 eqn:HT1. symmetry in HT1.
  remember (u64 (T1 + A)) as T2 eqn:HT2. symmetry in HT2.
  remember (u64 (T2 - tbase)) as T3 eqn:HT3. symmetry in HT3.
  remember (u64 (T3 + mono)) as T4 eqn:HT4. symmetry in HT4.
  pose proof (u64_range (sec * 1000000000)) as G1. rewrite HT1 in G1.
  pose proof (u64_range (T1 + A)) as G2. rewrite HT2 in G2.
  pose proof (u64_range (T2 - tbase)) as G3. rewrite HT3 in G3.
  pose proof (u64_range (T3 + mono)) as G4. rewrite HT4 in G4.
  destruct (clk =? 6) eqn:Eclk; do 7 eexists.
  - run_to 126%nat ltac:(rewrite ?Hlim, ?Lsec, ?Lnsec, ?Eclk, ?HT1, ?Lmask, ?Lbase, ?Lmono, ?HA, ?HT2, ?HT3, ?HT4). apply ct_refl.
  - run_to 126%nat ltac:(rewrite ?Hlim, ?Lsec, ?Lnsec, ?Eclk, ?HT1, ?Lmask, ?Lbase, ?Lmono, ?HA, ?HT2, ?HT3, ?HT4). apply ct_refl.
Qed.

(* The clock couldn't be read *)
Lemma time_fail a c d b sp q i j e f h k l r n text z t base mem vars :
  0 <= vars -> vars + 64 + 240 <= sp -> sp + 24 <= 140737488355328 ->
  0 < r < 4294967296 ->
  exists h' k' z' t',
  comes_to (More (Cpu (Regs a c d b (sp - 16) q i j e f h k l r n text) z t L_Lnot_suspended base mem))
    (More (Cpu (Regs a c 18446744073709551615 b sp q i 9 e f h' k' l r n text) z' t' L_Lexit_time base mem)).
Proof.
  intros Hv Hs Hs2 Rr. assert (E : (r =? 0) = false) by (apply Z.eqb_neq; lia).
  do 4 eexists. run_to 296%nat ltac:(rewrite ?Z.land_diag, ?E). apply ct_refl.
Qed.

(* The process exits *)
Lemma exit_time a c time b sp q i code e f h k l m n text z t base mem vars :
  0 <= vars -> vars + 64 + 240 <= sp -> sp + 24 <= 140737488355328 ->
  0 <= b < 18446744073709551616 -> Z.land b 13835058055282163710 = vars + 9984 ->
  0 <= time < 18446744073709551616 ->
  exists c' z' t',
  comes_to (More (Cpu (Regs a c time b sp q i code e f h k l m n text) z t L_Lexit_time base mem))
    (AtSyscall (Cpu (Regs 231 c' time b sp q i code e f h k l m n text) z' t' 306 base
                    (sto 8 (sto 4 mem vars ((sp - vars) mod card 4)) (vars + 8) time))).
Proof.
  intros Hv Hs Hs2 Rb Hlim Rt. do 3 eexists.
  run_to 305%nat ltac:(rewrite ?Hlim). fetch. red_ins. apply ct_refl.
Qed.
