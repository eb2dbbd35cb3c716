(* RuntimeExitProofs.v: rt_time and .Lexit as a whole. *)
From Verif Require Import RuntimeSpec AsmProofs RuntimeTimeProofs.
From Coq Require Import Lia ZArith List Bool.
Import ListNotations.
Local Open Scope Z_scope.

Lemma clock_value_ok m text vars clk sec nsec :
  (forall a, 0 <= m a < 256) -> 0 <= sec < 2 ^ 33 -> 0 <= nsec < 10 ^ 9 ->
  clock_value clk sec nsec (v_time_mask m text) (v_time_base m text) (s_monotonic m vars) = guest_time m text vars clk sec nsec.
Proof.
  intros Hm Hs Hn. unfold clock_value, guest_time, timestamp, nanoseconds.
  change (10 ^ 9) with 1000000000 in *. change (2 ^ 33) with 8589934592 in Hs.
  assert (E : nsec mod card 4 = nsec) by (apply card4_small; lia). rewrite E.
  assert (R : 0 <= Z.land nsec (v_time_mask m text) <= nsec).
  { split; [apply Z.land_nonneg; lia|]. rewrite Z.land_comm. apply land_le_r; [apply ld4_range; assumption|lia]. }
  rewrite (u64_small (sec * 1000000000)) by lia.
  rewrite (u64_small (sec * 1000000000 + _)) by lia.
  destruct (clk =? 6); [|reflexivity].
  unfold u64. rewrite Zplus_mod_idemp_l. f_equal. lia.
Qed.

Lemma susp_bits x (sg : bool) :
  (Z.land (if sg then Z.lor (Z.lor x 2) 1 else Z.lor x 2) 1 =? 0) = negb (sg || Z.odd x).
Proof.
  assert (E : forall y, Z.land y 1 = if Z.odd y then 1 else 0).
  { intros y. change 1 with (Z.ones 1) at 1. rewrite Z.land_ones by lia. change (2 ^ 1) with 2. rewrite Zmod_odd. reflexivity. }
  rewrite E. destruct sg; cbn [orb].
  - replace (Z.odd (Z.lor (Z.lor x 2) 1)) with true; [reflexivity|].
    rewrite <- !Z.bit0_odd, !Z.lor_spec. cbn. rewrite orb_true_r. reflexivity.
  - replace (Z.odd (Z.lor x 2)) with (Z.odd x); [destruct (Z.odd x); reflexivity|].
    rewrite <- !Z.bit0_odd, !Z.lor_spec. cbn. rewrite orb_false_r. reflexivity.
Qed.

(* .Ltime, from entry to both outcomes *)
Lemma time_whole a c d b sp q i clk e f h k l m n text z t base mem vars :
  0 <= vars -> vars + 64 + 240 <= sp -> sp + 24 <= 140737488355328 -> 4096 <= text < 140737488355328 ->
  text <= vars \/ sp <= text - 88 -> 0 <= base /\ base + 340 <= text - 88 ->
  0 <= b < 18446744073709551616 -> 0 <= clk < 4294967296 ->
  Z.land b 13835058055282163710 = vars + 9984 -> (forall x, 0 <= mem x < 256) ->
  ~ (base <= ld 8 mem (text - 88) < base + 340) ->
  exists s1, comes_to (More (Cpu (Regs a c d b sp q i clk e f h k l m n text) z t L_Ltime base mem)) (Outside (ld 8 mem (text - 88)) s1) /\
  rget rdi (rg s1) = clk /\
  (forall sec nsec sg e', clock_returns s1 vars true sec nsec sg e' -> 0 <= sec < 2 ^ 33 -> 0 <= nsec < 10 ^ 9 ->
     exists c2 d2 i2 j2 e2 f2 h2 k2 l2 m2 z2 t2 mem2,
     comes_to e' (Outside (text + 16)
       (Cpu (Regs (guest_time mem text vars clk sec nsec) c2 d2 (limit_after b (sg || Z.odd (ld 4 mem (vars + 20)))) sp q i2 j2 e2 f2 h2 k2 l2 m2 n text) z2 t2 132 base mem2)) /\
     ld 4 mem2 (vars + 20) = 0 /\ (forall x, 0 <= mem2 x < 256) /\ same_except mem mem2 vars sp [(20, 4)]) /\
  (forall sec nsec sg e', clock_returns s1 vars false sec nsec sg e' ->
     exists a2 c2 i2 e2 f2 h2 k2 l2 m2 z2 t2 mem2,
     comes_to e' (More
       (Cpu (Regs a2 c2 18446744073709551615 (limit_after b (sg || Z.odd (ld 4 mem (vars + 20)))) sp q i2 9 e2 f2 h2 k2 l2 m2 n text) z2 t2 L_Lexit_time base mem2)) /\
     ld 4 mem2 (vars + 20) = 0 /\ (forall x, 0 <= mem2 x < 256) /\ same_except mem mem2 vars sp [(20, 4)]).
Proof.
  intros Hv Hs Hs2 Ht Hap Hb Rb Rclk Hlim Hmem Hout.
  destruct (time_call a c d b sp q i clk e f h k l m n text z t base mem vars _ Hv Hs Hs2 Ht Hap Hb Rb Rclk Hlim Hmem eq_refl
     (ld8_range mem _ Hmem) Hout) as (a1 & z1 & t1 & mem1 & Hrun & Lret & Ltext & Lrbx & Lsusp & Hmem1 & Hsame1).
  eexists. split; [exact Hrun|]. split; [reflexivity|].
  (* what the C function leaves *)
  assert (Hcommon : forall ok sec nsec sg e',
    clock_returns (Cpu (Regs a1 0 d b (sp - 40) q (sp - 16) clk e f h k clk m n text) z1 t1 132 base mem1) vars ok sec nsec sg e' ->
    exists r d2 i2 j2 e2 f2 h2 k2 z2 t2 mem2 a3 c3,
      comes_to e' (More (Cpu (Regs a3 c3 d2 (limit_after b (sg || Z.odd (ld 4 mem (vars + 20)))) (sp - 16) q i2 j2 e2 f2 h2 k2 clk r n text) z2 t2 L_Lnot_suspended base mem2)) /\
      0 <= r < 4294967296 /\ (if ok then r = 0 else r <> 0) /\
      ld 4 mem2 (vars + 20) = 0 /\ (forall x, 0 <= mem2 x < 256) /\ same_except mem mem2 vars sp [(20, 4)] /\
      ld 8 mem2 (sp - 16) = sec /\ ld 8 mem2 (sp - 8) = nsec).
  { intros ok sec nsec sg e' (res & c' & d' & i' & j' & x' & f' & h' & k' & m' & -> & Hres & Hall & Hm' & Hsec & Hnsec & Hsusp & Hkeep).
    regs_cbn_in.
    assert (K : forall x, sp - 40 <= x < sp - 16 -> m' x = mem1 x) by (intros; apply Hkeep; lia).
    assert (Kret : ld 8 m' (sp - 40) = base + 242) by (rewrite <- Lret; apply ld_ext; intros; apply K; lia).
    assert (Ktext : ld 8 m' (sp - 32) = text) by (transitivity (ld 8 mem1 (sp - 32)); [|exact Ltext]; apply ld_ext; intros; apply K; lia).
    assert (Krbx : ld 8 m' (sp - 24) = b) by (rewrite <- Lrbx; apply ld_ext; intros; apply K; lia).
    pose proof (ld4_range m' (vars + 20) Hm') as Rsb.
    destruct (time_a (u64 res) c' d' b sp q i' j' x' f' h' k' clk m n text None None base m' vars text b _ Hv Hs Hs2
                (u64_range res) Rb Rsb Hlim Ktext Krbx eq_refl) as (a3 & c3 & z3 & t3 & Hrun3).
    exists (u64 res mod card 4), d', i', j', x', f', h', k', z3, t3, (sto 4 m' (vars + 20) 0), a3, c3.
    repeat match goal with |- _ /\ _ => split end.
    - unfold c_return. red_ins. rewrite Kret. rewrite goto_rt by (reflexivity || lia).
      change (Z.to_nat 242) with 242%nat. red_ins. rewrite (u64_small (sp - 40 + 8)) by lia.
      replace (sp - 40 + 8) with (sp - 32) by lia.
      replace (limit_after b (sg || Z.odd (ld 4 mem (vars + 20)))) with (rbx_after b (ld 4 m' (vars + 20))); [exact Hrun3|].
      unfold rbx_after, limit_after. rewrite Hsusp, Lsusp. rewrite susp_bits. destruct (sg || _); reflexivity.
    - apply card4_range.
    - apply card4_range.
    - exact Hres.
    - apply ld_sto_same4. lia.
    - intros x. apply sto_range. assumption.
    - same_tac. rewrite Hkeep by lia. apply Hsame1; [lia|]. intros f0 n0 [Hin|[]]. injection Hin as <- <-. lia.
    - rewrite ld_sto_other by lia. exact Hsec.
    - rewrite ld_sto_other by lia. rewrite <- Hnsec. f_equal. lia. }
  assert (Hlim2 : forall w, Z.land (limit_after b w) 13835058055282163710 = vars + 9984).
  { intros []; cbn [limit_after]; [|exact Hlim]. unfold limit_after. rewrite Z.land_lor_distr_l. rewrite Hlim.
    change (Z.land suspend_mask _) with 0. apply Z.lor_0_r. }
  assert (Rb2 : forall w, 0 <= limit_after b w < 18446744073709551616).
  { intros []; cbn [limit_after]; [|exact Rb]. apply lor_range. exact Rb. }
  split.
  - intros sec nsec sg e' Hret Rs Rn.
    assert (Rsec : 0 <= sec < 18446744073709551616) by (change (2 ^ 33) with 8589934592 in Rs; lia).
    destruct (Hcommon _ _ _ _ _ Hret) as (r & d2 & i2 & j2 & e2 & f2 & h2 & k2 & z2 & t2 & mem2 & a3 & c3 & Hrun3 & Rr & -> & L0 & Hmem2 & Hsame & Lsec & Lnsec).
    assert (Q : forall x, text - 88 <= x < text -> mem2 x = mem x).
    { intros x Hx. apply Hsame; [lia|]. intros f0 n0 [Hin|[]]. injection Hin as <- <-. lia. }
    assert (Lmask : ld 4 mem2 (text - 72) = v_time_mask mem text) by (apply ld_ext; intros; apply Q; lia).
    assert (Lbase : ld 8 mem2 (text - 80) = v_time_base mem text) by (apply ld_ext; intros; apply Q; lia).
    assert (Lmono : ld 8 mem2 (vars + 8) = s_monotonic mem vars).
    { apply ld_ext. intros x Hx. apply Hsame; [lia|]. intros f0 n0 [Hin|[]]. injection Hin as <- <-. lia. }
    destruct (time_b a3 c3 d2 (limit_after b (sg || Z.odd (ld 4 mem (vars + 20)))) sp q i2 j2 e2 f2 h2 k2 clk n text z2 t2 base mem2 vars sec nsec
                (v_time_mask mem text) (v_time_base mem text) (s_monotonic mem vars) Hv Hs Hs2 Ht (Rb2 _) Rclk (Hlim2 _)
                Lsec Rsec Lnsec Lmask (ld4_range _ _ Hmem) Lbase (ld8_range _ _ Hmem) Lmono (ld8_range _ _ Hmem))
      as (c4 & d4 & j4 & h4 & k4 & z4 & t4 & Hrun4).
    rewrite clock_value_ok in Hrun4 by assumption.
    do 13 eexists. split; [|split; [|split]].
    + eapply ct_trans; [exact Hrun3|]. eapply ct_trans; [exact Hrun4|]. apply resume_leave; lia.
    + rewrite !ld_sto_other by lia. exact L0.
    + repeat apply sto_range; assumption.
    + same_tac. apply Hsame; [lia|]. intros f0 n0 [Hin|[]]. injection Hin as <- <-. lia.
  - intros sec nsec sg e' Hret.
    destruct (Hcommon _ _ _ _ _ Hret) as (r & d2 & i2 & j2 & e2 & f2 & h2 & k2 & z2 & t2 & mem2 & a3 & c3 & Hrun3 & Rr & Hr & L0 & Hmem2 & Hsame & Lsec & Lnsec).
    destruct (time_fail a3 c3 d2 (limit_after b (sg || Z.odd (ld 4 mem (vars + 20)))) sp q i2 j2 e2 f2 h2 k2 clk r n text z2 t2 base mem2 vars Hv Hs Hs2 ltac:(lia))
      as (h4 & k4 & z4 & t4 & Hrun4).
    do 12 eexists. split; [|split; [|split]].
    + eapply ct_trans; [exact Hrun3|]. exact Hrun4.
    + exact L0.
    + assumption.
    + exact Hsame.
Qed.

Lemma guest_time_range m text vars sec nsec : 0 <= guest_time m text vars 6 sec nsec < 18446744073709551616.
Proof. unfold guest_time. cbn [Z.eqb Pos.eqb]. apply Z.mod_pos_bound. reflexivity. Qed.

Lemma guest_time_ext m m' text vars clk sec nsec :
  (forall x, text - 88 <= x < text -> m' x = m x) -> (forall x, vars + 8 <= x < vars + 16 -> m' x = m x) ->
  guest_time m' text vars clk sec nsec = guest_time m text vars clk sec nsec.
Proof.
  intros Hx Hy. unfold guest_time, v_time_mask, v_time_base, s_monotonic.
  rewrite (ld_ext 4 m m' (text - 72)) by (intros; apply Hx; lia).
  rewrite (ld_ext 8 m m' (text - 80)) by (intros; apply Hx; lia).
  rewrite (ld_ext 8 m m' (vars + 8)) by (intros; apply Hy; lia). reflexivity.
Qed.

(* .Lexit: to the call of .Ltime, and after it *)
Lemma exit_a a c d b sp q i code e f h k l m n text z t base mem :
  512 <= sp < 140737488355328 -> 0 <= base < 140737488355328 -> 0 <= code < 18446744073709551616 ->
  comes_to (More (Cpu (Regs a c d b sp q i code e f h k l m n text) z t L_Lexit base mem))
    (More (Cpu (Regs a c d b (sp - 16) q i 6 e f h k l m n text) z t L_Ltime base
               (sto 8 (sto 8 mem (sp - 8) code) (sp - 16) (base + 294)))).
Proof. intros Hsp Hb Hc. run_to 230%nat idtac. apply ct_refl. Qed.
Lemma exit_b a c d b sp q i j e f h k l m n text z t base mem code :
  512 <= sp < 140737488355328 -> 0 <= base < 140737488355328 -> ld 8 mem (sp - 8) = code -> 0 <= a < 18446744073709551616 ->
  comes_to (More (Cpu (Regs a c d b (sp - 8) q i j e f h k l m n text) z t 294 base mem))
    (More (Cpu (Regs a c a b sp q i code e f h k l m n text) z t L_Lexit_time base mem)).
Proof. intros Hsp Hb Hc Ra. run_to 296%nat ltac:(rewrite ?Hc). replace (sp - 0) with sp by lia. apply ct_refl. Qed.

Lemma same_vars_text s sp text vars mem' fields :
  imported s sp text vars -> same_except (mm s) mem' vars sp fields ->
  (forall f n, In (f, n) fields -> 0 <= f /\ f + n <= 64) ->
  forall x, text - 88 <= x < text -> mem' x = mm s x.
Proof.
  intros H Hs Hf x Hx. open_imported H. apply Hs; [lia|]. intros f n Hin. specialize (Hf f n Hin). lia.
Qed.

(* The status is in rdi *)
Lemma exits s sp text vars code :
  imported s sp text vars -> pc s = L_Lexit -> rget rdi (rg s) = code ->
  exits_with s sp text vars code.
Proof.
  intros H Hpc Hcode. pose proof (same_vars_text s sp text vars) as Hst. specialize (fun m fl => Hst m fl H).
  open_imported H.
  destruct s as [[a c d b p q i j e f h k l m n o] z t pc0 base mem].
  pose proof (Hregs rbx) as Gb. pose proof (Hregs rdi) as Gi. clear Hregs.
  regs_cbn_in. subst p o pc0 j.
  set (memc := sto 8 (sto 8 mem (sp - 8) code) (sp - 16) (base + 294)).
  assert (Hmc : forall x, 0 <= memc x < 256) by (repeat apply sto_range; assumption).
  assert (Hsc : same_except mem memc vars sp []) by (unfold memc; same_tac).
  assert (Hv8 : ld 8 memc (text - 88) = ld 8 mem (text - 88)) by (unfold memc; rewrite !ld_sto_other by lia; reflexivity).
  destruct (time_whole a c d b (sp - 16) q i 6 e f h k l m n text z t base memc vars) as (s1 & Hrun1 & Hdi & Hok & Hfail); try lia; try assumption.
  exists s1. split; [|split; [exact Hdi|split]].
  - eapply ct_trans; [apply exit_a; lia|]. fold memc. unfold v_clock_gettime. regs_cbn. rewrite <- Hv8. exact Hrun1.
  - intros sec nsec sg e' Hret Rs Rn.
    destruct (Hok sec nsec sg e' Hret Rs Rn) as (c2 & d2 & i2 & j2 & e2 & f2 & h2 & k2 & l2 & m2 & z2 & t2 & mem2 & Hrun2 & L0 & Hm2 & Hs2).
    eexists. split; [exact Hrun2|]. intros e3 (c3 & d3 & p3 & i3 & j3 & x3 & f3 & h3 & k3 & l3 & m3 & n3 & He3). regs_cbn_in.
    cbv beta iota zeta delta [pop] in He3. regs_cbn_in. subst e3.
    set (b2 := limit_after b (sg || Z.odd (ld 4 memc (vars + 20)))) in *.
    assert (Hb2 : Z.land b2 13835058055282163710 = vars + 9984).
    { unfold b2, limit_after. destruct (sg || _); [|exact Hlim]. rewrite Z.land_lor_distr_l, Hlim. change (Z.land suspend_mask _) with 0. apply Z.lor_0_r. }
    assert (Rb2 : 0 <= b2 < 18446744073709551616).
    { unfold b2, limit_after. destruct (sg || _); [|exact Gb]. apply lor_range. exact Gb. }
    assert (Lret : ld 8 mem2 (sp - 16) = base + 294).
    { transitivity (ld 8 memc (sp - 16)); [|apply ld_sto_same8; lia]. apply ld_ext. intros x Hx. apply Hs2; [lia|]. intros f0 n0 [Hin|[]]. injection Hin as <- <-. lia. }
    assert (Lcode : ld 8 mem2 (sp - 8) = code).
    { transitivity (ld 8 memc (sp - 8)); [|unfold memc; rewrite ld_sto_other by lia; apply ld_sto_same8; lia]. apply ld_ext. intros x Hx. apply Hs2; [lia|]. intros f0 n0 [Hin|[]]. injection Hin as <- <-. lia. }
    rewrite Lret. rewrite goto_rt by (reflexivity || lia). change (Z.to_nat 294) with 294%nat.
    cbn [set_rg set_pc rset rg zf lt cbase mm]. rewrite (u64_small (sp - 16 + 8)) by lia. replace (sp - 16 + 8) with (sp - 8) by lia.
    set (T := guest_time memc text vars 6 sec nsec).
    assert (RT : 0 <= T < 18446744073709551616) by apply guest_time_range.
    destruct (exit_time T c3 T b2 sp p3 i3 code x3 f3 h3 k3 l3 m3 n3 text None None base mem2 vars) as (c4 & z4 & t4 & Hrun4); try lia; try assumption.
    eexists. split.
    + eapply ct_trans; [apply (exit_b T c3 d3 b2 sp p3 i3 j3 x3 f3 h3 k3 l3 m3 n3 text None None base mem2 code); [lia|lia|exact Lcode|exact RT]|]. exact Hrun4.
    + constructor; regs_cbn; try reflexivity.
      * unfold s_unused. rewrite ld_sto_other by lia. rewrite (ld_sto_same 4); [reflexivity|]. apply card4_range.
      * unfold s_monotonic. rewrite ld_sto_same8 by exact RT. unfold T. apply guest_time_ext.
        -- intros x Hx. apply (Hst memc [] Hsc); [intros f0 n0 []|assumption].
        -- intros x Hx. apply Hsc; [lia|intros f0 n0 []].
      * same_tac. transitivity (memc a0).
        -- apply Hs2; [lia|]. intros f0 n0 [Hin|[]]. injection Hin as <- <-. lia.
        -- apply Hsc; [lia|intros f0 n0 []].
  - intros sec nsec sg e' Hret.
    destruct (Hfail sec nsec sg e' Hret) as (a2 & c2 & i2 & e2 & f2 & h2 & k2 & l2 & m2 & z2 & t2 & mem2 & Hrun2 & L0 & Hm2 & Hs2).
    set (b2 := limit_after b (sg || Z.odd (ld 4 memc (vars + 20)))) in *.
    assert (Hb2 : Z.land b2 13835058055282163710 = vars + 9984).
    { unfold b2, limit_after. destruct (sg || _); [|exact Hlim]. rewrite Z.land_lor_distr_l, Hlim. change (Z.land suspend_mask _) with 0. apply Z.lor_0_r. }
    assert (Rb2 : 0 <= b2 < 18446744073709551616).
    { unfold b2, limit_after. destruct (sg || _); [|exact Gb]. apply lor_range. exact Gb. }
    destruct (exit_time a2 c2 18446744073709551615 b2 (sp - 16) q i2 9 e2 f2 h2 k2 l2 m2 n text z2 t2 base mem2 vars) as (c4 & z4 & t4 & Hrun4); try lia; try assumption.
    eexists. split; [eapply ct_trans; [exact Hrun2|exact Hrun4]|]. regs_cbn. split; [reflexivity|]. split; [reflexivity|].
    unfold s_monotonic. apply ld_sto_same8. lia.
Qed.

(* A function that gets to .Lexit without having changed memory *)
Lemma exits_via s s' sp text vars code :
  comes_to (More s) (More s') -> mm s' = mm s -> exits_with s' sp text vars code -> exits_with s sp text vars code.
Proof.
  intros Hc Hm (s1 & H1 & Hd & Hok & Hf). exists s1. rewrite <- Hm. split; [eapply ct_trans; eassumption|]. split; [exact Hd|]. split; [|exact Hf].
  intros sec nsec sg e Hr Rs Rn. destruct (Hok sec nsec sg e Hr Rs Rn) as (s2 & H2 & H3). exists s2. split; [exact H2|].
  intros e3 He3. destruct (H3 e3 He3) as (s4 & H4 & [X1 X2 X3 X4 X5]). exists s4. split; [exact H4|]. constructor; try assumption.
  rewrite <- Hm. exact X5.
Qed.
