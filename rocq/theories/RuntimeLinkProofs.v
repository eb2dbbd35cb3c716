(* RuntimeLinkProofs.v: the functions of runtime.S and those of Wasm.v. *)
From Verif Require Import Wasm RuntimeKernel AsmProofs RuntimeTimeProofs RuntimeExitProofs RuntimeFunProofs RuntimeFun2Proofs RuntimeIoProofs RuntimeIo2Proofs RuntimeDebugProofs RuntimePollProofs RuntimeSigProofs.
From Coq Require Import Lia ZArith List Bool.
Import ListNotations.
Local Open Scope Z_scope.

Lemma nop_ok s sp text vars : imported s sp text vars -> pc s = L_rt_nop -> resumes s sp text vars 0 [] no_more.
Proof.
  intros H Hpc. start H sp text. resume_by idtac. resumed_facts. exact Logic.I.
Qed.

(* The regions, in numbers *)
Definition geometry (sp text vars M : Z) : Prop :=
  0 <= vars /\ vars + 512 <= sp /\ (text <= vars \/ sp + 24 <= text - 88) /\
  0 <= M /\ (M + 4294967296 <= vars \/ sp + 24 <= M) /\ (M + 4294967296 <= text - 88 \/ text <= M).
Lemma geometry_of s sp text vars : imported s sp text vars -> memory_apart s sp text vars -> geometry sp text vars (v_memory (mm s) text).
Proof.
  intros [_ _ _ _ _ (R1 & R2 & _) Ap _ _] (M1 & M2 & M3 & M4). change (2 ^ 32) with 4294967296 in *. unfold geometry. cbv zeta in *. lia.
Qed.
Lemma random_left_ext m m' text n : n <= 16 -> (forall x, text - 88 <= x < text -> m' x = m x) -> random_left m' text n = random_left m text n.
Proof.
  intros Hn H. unfold random_left. apply map_ext_in. intros i Hi. rewrite <- in_rev in Hi. apply in_seq in Hi. unfold v_random. apply H. lia.
Qed.
Lemma v_memory_ext m m' text : (forall x, text - 88 <= x < text -> m' x = m x) -> v_memory m' text = v_memory m text.
Proof. intros H. unfold v_memory. apply ld_ext. intros x Hx. apply H. lia. Qed.
Lemma shows_frame m m' text vars t t' :
  shows m text vars t ->
  (forall x, vars <= x < vars + 64 -> m' x = m x) -> (forall x, text - 88 <= x < text -> m' x = m x) ->
  (forall a, 0 <= a < 2 ^ 32 -> mem t' a = m' (v_memory m text + a)) -> pages t' = pages t -> w_random (wd t') = w_random (wd t) ->
  shows m' text vars t'.
Proof.
  intros [S1 S2 S3 S4] HV HT HM HP HR.
  assert (EA : s_random_avail m' vars = s_random_avail m vars) by (apply ld_ext; intros x Hx; apply HV; lia).
  constructor.
  - rewrite HP, S1. symmetry. apply ld_ext. intros x Hx. apply HV. lia.
  - rewrite (v_memory_ext m m' text HT). exact HM.
  - rewrite EA. exact S3.
  - rewrite HR, S4, EA. symmetry. apply random_left_ext; [lia|exact HT].
Qed.
(* Changes in the stack only *)
Lemma shows_stack m m' sp text vars t t' :
  geometry sp text vars (v_memory m text) -> shows m text vars t ->
  (forall x, ~ (vars + 64 <= x < sp + 20) -> m' x = m x) -> mem t' = mem t -> pages t' = pages t -> w_random (wd t') = w_random (wd t) ->
  shows m' text vars t'.
Proof.
  intros (G1 & G2 & G3 & G4 & G5 & G6) S H HM HP HR. apply (shows_frame m m' text vars t t' S); try assumption.
  - intros x Hx. apply H. lia.
  - intros x Hx. apply H. lia.
  - intros a Ha. change (2 ^ 32) with 4294967296 in *. rewrite HM, (sh_mem _ _ _ _ S) by exact Ha. symmetry. apply H. lia.
Qed.
Lemma same_except_stack m m' vars sp : same_except m m' vars sp [] -> forall x, ~ (vars + 64 <= x < sp + 20) -> m' x = m x.
Proof. intros H x Hx. apply H; [lia|]. intros f n []. Qed.

Lemma put_bytes_in l : forall m a i, (i < length l)%nat -> put_bytes m a l (a + Z.of_nat i) = nth i l 0.
Proof.
  induction l as [|b l IH]; intros m a i Hi; [simpl in Hi; lia|]. simpl put_bytes. destruct i as [|i].
  - simpl nth. replace (a + Z.of_nat 0) with a by lia.
    assert (E : forall l' m' x y, x < y -> put_bytes m' y l' x = m' x).
    { clear. induction l' as [|b l' IH]; intros m' x y H; simpl; [reflexivity|]. rewrite IH by lia. replace (x =? y) with false by (symmetry; apply Z.eqb_neq; lia). reflexivity. }
    rewrite E by lia. rewrite Z.eqb_refl. reflexivity.
  - replace (a + Z.of_nat (S i)) with (a + 1 + Z.of_nat i) by lia. simpl nth. apply IH. simpl in Hi. lia.
Qed.
Lemma put_bytes_out l : forall m a x, x < a \/ a + Z.of_nat (length l) <= x -> put_bytes m a l x = m x.
Proof.
  induction l as [|b l IH]; intros m a x H; simpl; [reflexivity|]. rewrite IH by (simpl in H; lia).
  replace (x =? a) with false; [reflexivity|]. symmetry. apply Z.eqb_neq. simpl in H. lia.
Qed.
(* The same bytes put to both memories *)
Lemma put_bytes_both (m1 m2 : Z -> Z) M a l : (forall x, 0 <= x < 2 ^ 32 -> m1 x = m2 (M + x)) ->
  forall x, 0 <= x < 2 ^ 32 -> put_bytes m1 a l x = put_bytes m2 (M + a) l (M + x).
Proof.
  intros H x Hx. destruct (Z.lt_ge_cases x a) as [L|L]; [|destruct (Z.lt_ge_cases x (a + Z.of_nat (length l))) as [L2|L2]].
  - rewrite !put_bytes_out by lia. apply H. exact Hx.
  - replace x with (a + Z.of_nat (Z.to_nat (x - a))) by lia. rewrite Z.add_assoc. rewrite !put_bytes_in by lia. reflexivity.
  - rewrite !put_bytes_out by lia. apply H. exact Hx.
Qed.
Lemma bytes_at_both (m1 m2 : Z -> Z) M n : forall a, 0 <= a -> a + Z.of_nat n <= 2 ^ 32 -> (forall x, 0 <= x < 2 ^ 32 -> m1 x = m2 (M + x)) ->
  bytes_at m1 a n = bytes_at m2 (M + a) n.
Proof.
  induction n as [|n IH]; intros a Ha Hn H; simpl; [reflexivity|]. f_equal.
  - apply H. lia.
  - replace (M + a + 1) with (M + (a + 1)) by lia. apply IH; [lia|lia|exact H].
Qed.
Lemma put_bytes_range l : forall m a, (forall x, 0 <= m x < 256) -> Forall (fun b => 0 <= b < 256) l -> forall x, 0 <= put_bytes m a l x < 256.
Proof.
  induction l as [|b l IH]; intros m a H F x; simpl; [apply H|]. inversion F; subst. apply IH; [|assumption]. intros y. destruct (y =? a); [assumption|apply H].
Qed.

(* An outcome with a result: to the resume routine *)
Lemma leads_resumes s s' sp text vars t v x w fl :
  resumes s' sp text vars x fl no_more -> rget rbx (rg s') = rget rbx (rg s) -> kernels w = kernels (wd t) -> (forall y, v = Some y -> x = y) ->
  (forall m2, same_except (mm s') m2 vars sp fl -> shows m2 text vars t) ->
  leads w (More s') (agrees s sp text vars t (Next v)).
Proof.
  intros (s2 & H1 & [X1 X2 X3 X4 X5] & _) Hb Hw Hv Hs. eapply leads_on; [exact H1|]. apply leads_there. split; [exact Hw|].
  exists s2. split; [reflexivity|]. split; [intros y Hy; rewrite X1; apply Hv; exact Hy|]. split; [exact X2|]. split; [exact X3|]. split; [rewrite X4; exact Hb|]. apply Hs. exact X5.
Qed.

Section Calls.
Variables (s : cpu) (sp text vars : Z) (t : st).
Hypothesis HI : imported s sp text vars.
Hypothesis HA : memory_apart s sp text vars.
Hypothesis HS : shows (mm s) text vars t.
Hypothesis HW : answers_ok (wd t).

Lemma link_nop : pc s = L_rt_nop -> leads (wd t) (More s) (agrees s sp text vars t (Next None)).
Proof.
  intros Hpc. pose proof (geometry_of _ _ _ _ HI HA) as G. eapply leads_resumes; [apply nop_ok; eassumption|reflexivity|reflexivity|discriminate|].
  intros m2 H2. apply (shows_stack (mm s) m2 sp text vars t t G HS); try reflexivity. apply same_except_stack. exact H2.
Qed.

Lemma link_random : pc s = L_rt_random ->
  leads (wd t) (More s) (fun w e => let (t', o) := call_rt RtRandom [] t in agrees s sp text vars t' o w e).
Proof.
  intros Hpc. pose proof (geometry_of _ _ _ _ HI HA) as G. destruct HS as [S1 S2 S3 S4]. cbn [call_rt]. unfold rt_random. rewrite S4.
  destruct (Z.eq_dec (s_random_avail (mm s) vars) 0) as [E|E].
  - rewrite E. cbn. eapply leads_resumes; [apply random_none; try eassumption; left; exact E|reflexivity|reflexivity|intros y [= <-]; reflexivity|].
    intros m2 H2. apply (shows_stack (mm s) m2 sp text vars t t G HS); try reflexivity. apply same_except_stack. exact H2.
  - assert (EN : random_left (mm s) text (s_random_avail (mm s) vars) =
      v_random (mm s) text (s_random_avail (mm s) vars - 1) :: random_left (mm s) text (s_random_avail (mm s) vars - 1)).
    { unfold random_left. replace (Z.to_nat (s_random_avail (mm s) vars)) with (S (Z.to_nat (s_random_avail (mm s) vars - 1))) by lia.
      rewrite seq_S, rev_app_distr. cbn [rev app map]. rewrite Nat.add_0_l. f_equal. f_equal. lia. }
    rewrite EN. destruct (random_some s sp text vars HI Hpc ltac:(lia)) as (s2 & H1 & [X1 X2 X3 X4 X5] & X6).
    eapply leads_on; [exact H1|]. apply leads_there. split; [reflexivity|]. exists s2. split; [reflexivity|].
    split; [intros y [= <-]; exact X1|]. split; [exact X2|]. split; [exact X3|]. split; [exact X4|].
    destruct G as (G1 & G2 & G3 & G4 & G5 & G6). cbn [w_random wd set_wd pages mem]. unfold set_wd.
    assert (HT : forall x, text - 88 <= x < text -> mm s2 x = mm s x). { intros x Hx. apply X5; [lia|]. intros f n [[= <- <-]|[]]. lia. }
    constructor; cbn [w_random wd set_wd pages mem].
    + rewrite S1. symmetry. apply ld_ext. intros x Hx. apply X5; [lia|]. intros f n [[= <- <-]|[]]. lia.
    + intros a Ha. rewrite (v_memory_ext _ _ _ HT). rewrite S2 by exact Ha. symmetry. change (2 ^ 32) with 4294967296 in Ha.
      apply X5; [lia|]. intros f n [[= <- <-]|[]]. lia.
    + rewrite X6. lia.
    + rewrite X6. symmetry. apply random_left_ext; [lia|exact HT].
Qed.

Lemma bounds_u32 m a : (forall x, 0 <= m x < 256) -> 0 <= ld 4 m a < 4294967296.
Proof. apply ld4_range. Qed.
Lemma size_same : u32 (pages t * 65536) = memory_size (mm s) vars.
Proof. rewrite (sh_pages _ _ _ _ HS). reflexivity. Qed.

(* The common beginning *)
Lemma link_nothing fn v : pc s = io_pc fn -> arg2 (mm s) sp = 0 -> (forall y, v = Some y -> 0 = y) ->
  leads (wd t) (More s) (agrees s sp text vars t (Next v)).
Proof.
  intros Hpc HN Hv. pose proof (geometry_of _ _ _ _ HI HA) as G.
  eapply leads_resumes; [eapply io_nothing; eassumption|reflexivity|reflexivity|exact Hv|].
  intros m2 H2. apply (shows_stack (mm s) m2 sp text vars t t G HS); try reflexivity. apply same_except_stack. exact H2.
Qed.
Lemma link_outside fn : pc s = io_pc fn -> 0 < arg2 (mm s) sp -> memory_size (mm s) vars < arg1 (mm s) sp + arg2 (mm s) sp ->
  leads (wd t) (More s) (agrees s sp text vars t (Exit 105)).
Proof.
  intros Hpc HN HO. apply leads_there. split; [reflexivity|]. exists s. split; [reflexivity|]. split; [|exact HS]. eapply io_outside; eassumption.
Qed.
Lemma args_range : 0 <= arg1 (mm s) sp < 4294967296 /\ 0 <= arg2 (mm s) sp < 4294967296.
Proof. destruct HI as [_ _ _ _ Hmem _ _ _ _]. split; apply ld4_range; exact Hmem. Qed.

Lemma firstn_forall (P : Z -> Prop) n l : Forall P l -> Forall P (firstn n l).
Proof. intros H. rewrite <- (firstn_skipn n l) in H. apply Forall_app in H. apply H. Qed.

Lemma link_read : pc s = L_rt_read ->
  leads (wd t) (More s) (fun w e => let (t', o) := call_rt RtRead [arg1 (mm s) sp; arg2 (mm s) sp] t in agrees s sp text vars t' o w e).
Proof.
  intros Hpc. pose proof (geometry_of _ _ _ _ HI HA) as G. pose proof args_range as (RA & RN). cbn [call_rt]. unfold rt_read, io_prologue. rewrite size_same.
  destruct (arg2 (mm s) sp =? 0) eqn:E0.
  { apply Z.eqb_eq in E0. apply (link_nothing Read); [exact Hpc|exact E0|]. intros y [= <-]. reflexivity. }
  apply Z.eqb_neq in E0. destruct (memory_size (mm s) vars <? arg1 (mm s) sp + arg2 (mm s) sp) eqn:E1.
  { apply Z.ltb_lt in E1. apply (link_outside Read); [exact Hpc|lia|exact E1]. }
  apply Z.ltb_ge in E1.
  destruct (io_ok Read s sp text vars ltac:(discriminate) HI Hpc HA ltac:(lia) E1) as (s1 & H1 & Q1 & Q2 & Q3 & Q4 & Qm & Qb & Qk).
  cbn [io_nr io_fd] in *. eapply leads_on; [exact H1|].
  assert (EK : forall w, kernel w s1 = sys_read w (mm s) (v_memory (mm s) text + arg1 (mm s) sp) (arg2 (mm s) sp)).
  { intros w. unfold kernel. cbv zeta. rewrite Q1, Q2, Q3, Q4, Qm. reflexivity. }
  assert (RS : memory_size (mm s) vars < 4294967296) by (apply size_range).
  destruct HW as [Win Wre _ _ _]. destruct HS as [S1 S2 S3 S4].
  unfold sys_read in EK. destruct (w_reads (wd t)) as [|r rest] eqn:ER.
  { apply leads_there. split; [reflexivity|]. split; [reflexivity|]. split; [reflexivity|]. exists s1. split; [reflexivity|]. rewrite EK, ER. reflexivity. }
  set (c := Z.to_nat (Z.min r (Z.min (arg2 (mm s) sp) (len (w_input (wd t)))))).
  inversion Wre as [|r' rest' Hr _]; subst r' rest'.
  assert (Gm : forall x, 0 <= mm s x < 256) by (destruct HI; assumption).
  destruct (0 <=? r) eqn:Er.
  - apply Z.leb_le in Er.
    assert (LC : (length (firstn c (w_input (wd t))) = c)%nat). { rewrite firstn_length. unfold c, len. lia. }
    assert (CB : Z.of_nat c <= arg2 (mm s) sp) by (unfold c, len; lia).
    eapply leads_sys. { rewrite EK, ER. fold c. rewrite (proj2 (Z.leb_le 0 r)) by exact Er. reflexivity. }
    intros cc kk Hc Hk.
    assert (KS : kernel_stored (mm s1) (put_bytes (mm s) (v_memory (mm s) text + arg1 (mm s) sp) (firstn c (w_input (wd t)))) (v_memory (mm s) text + arg1 (mm s) sp) (arg2 (mm s) sp)).
    { rewrite Qm. split; [apply put_bytes_range; [exact Gm|apply firstn_forall; exact Win]|]. intros x Hx. apply put_bytes_out. rewrite LC. lia. }
    specialize (Qk (Z.of_nat c) cc kk _ Hc Hk ltac:(lia) KS). cbn [after_io] in Qk. replace (0 <=? Z.of_nat c) with true in Qk by (symmetry; apply Z.leb_le; lia).
    eapply leads_resumes; [exact Qk| | |intros y [= <-]; reflexivity|].
    + unfold sysret. cbn [rg]. destruct (rg s1); exact Qb.
    + reflexivity.
    + intros m2 H2. destruct G as (G1 & G2 & G3 & G4 & G5 & G6).
      assert (X : forall x, ~ (vars + 64 <= x < sp + 20) -> m2 x = put_bytes (mm s) (v_memory (mm s) text + arg1 (mm s) sp) (firstn c (w_input (wd t))) x)
        by (apply same_except_stack; exact H2).
      eapply (shows_frame (mm s) m2 text vars t); [exact HS| | | |reflexivity|reflexivity].
      * intros x Hx. rewrite X by lia. apply put_bytes_out. rewrite LC. lia.
      * intros x Hx. rewrite X by lia. apply put_bytes_out. rewrite LC. lia.
      * intros a Ha. cbn [mem set_mem set_wd]. rewrite X by (change (2 ^ 32) with 4294967296 in Ha; lia). apply put_bytes_both; assumption.
  - apply Z.leb_gt in Er. assert (Ern : (0 <=? r) = false) by (apply Z.leb_gt; exact Er).
    assert (KS : kernel_stored (mm s1) (mm s) (v_memory (mm s) text + arg1 (mm s) sp) (arg2 (mm s) sp)).
    { rewrite Qm. split; [exact Gm|]. reflexivity. }
    pose proof (fun cc kk Hc Hk => Qk r cc kk (mm s) Hc Hk ltac:(lia) KS) as Qr. cbn [after_io] in Qr. rewrite Ern in Qr. unfold EAGAIN, EINTR, ERR_RT_READ.
    change (- (11)) with (-11). change (- (4)) with (-4).
    destruct ((r =? -11) || (r =? -4)); (eapply leads_sys; [rewrite EK, ER; fold c; rewrite Ern; reflexivity|]); intros cc kk Hc Hk; specialize (Qr cc kk Hc Hk).
    + eapply leads_resumes; [exact Qr| |reflexivity|intros y [= <-]; reflexivity|].
      * unfold sysret. cbn [rg]. destruct (rg s1); exact Qb.
      * intros m2 H2. apply (shows_stack (mm s) m2 sp text vars t _ G HS); try reflexivity. apply same_except_stack. exact H2.
    + apply leads_there. split; [reflexivity|]. eexists. split; [reflexivity|]. split; [exact Qr|]. unfold sysret. cbn [mm].
      apply (shows_stack (mm s) (mm s) sp text vars t _ G HS); reflexivity.
Qed.

Lemma link_write : pc s = L_rt_write ->
  leads (wd t) (More s) (fun w e => let (t', o) := call_rt RtWrite [arg1 (mm s) sp; arg2 (mm s) sp] t in agrees s sp text vars t' o w e).
Proof.
  intros Hpc. pose proof (geometry_of _ _ _ _ HI HA) as G. pose proof args_range as (RA & RN). cbn [call_rt]. unfold rt_write, io_prologue. rewrite size_same.
  destruct (arg2 (mm s) sp =? 0) eqn:E0.
  { apply Z.eqb_eq in E0. apply (link_nothing Write); [exact Hpc|exact E0|]. intros y [= <-]. reflexivity. }
  apply Z.eqb_neq in E0. destruct (memory_size (mm s) vars <? arg1 (mm s) sp + arg2 (mm s) sp) eqn:E1.
  { apply Z.ltb_lt in E1. apply (link_outside Write); [exact Hpc|lia|exact E1]. }
  apply Z.ltb_ge in E1.
  destruct (io_ok Write s sp text vars ltac:(discriminate) HI Hpc HA ltac:(lia) E1) as (s1 & H1 & Q1 & Q2 & Q3 & Q4 & Qm & Qb & Qk).
  cbn [io_nr io_fd] in *. eapply leads_on; [exact H1|].
  assert (EK : forall w, kernel w s1 = sys_write w (mm s) (v_memory (mm s) text + arg1 (mm s) sp) (arg2 (mm s) sp)).
  { intros w. unfold kernel. cbv zeta. rewrite Q1, Q2, Q3, Q4, Qm. reflexivity. }
  assert (RS : memory_size (mm s) vars < 4294967296) by (apply size_range).
  destruct HW as [_ _ Wwr _ _]. destruct HS as [S1 S2 S3 S4].
  unfold sys_write in EK. destruct (w_writes (wd t)) as [|r0 rest] eqn:ER.
  { apply leads_there. split; [reflexivity|]. split; [reflexivity|]. split; [reflexivity|]. exists s1. split; [reflexivity|]. rewrite EK, ER. reflexivity. }
  inversion Wwr as [|r' rest' Hr _]; subst r' rest'. cbv zeta.
  set (r := Z.min r0 (arg2 (mm s) sp)) in *.
  assert (Gm : forall x, 0 <= mm s x < 256) by (destruct HI; assumption).
  assert (KS : kernel_stored (mm s1) (mm s) (v_memory (mm s) text + arg1 (mm s) sp) (arg2 (mm s) sp)).
  { rewrite Qm. split; [exact Gm|]. reflexivity. }
  pose proof (fun cc kk Hc Hk => Qk r cc kk (mm s) Hc Hk ltac:(unfold r; lia) KS) as Qr. cbn [after_io] in Qr. unfold EAGAIN, EINTR, ERR_RT_WRITE.
  change (- (11)) with (-11). change (- (4)) with (-4).
  assert (EB : 0 < r -> bytes_at (mm s) (v_memory (mm s) text + arg1 (mm s) sp) (Z.to_nat r) = bytes_at (mem t) (arg1 (mm s) sp) (Z.to_nat r)).
  { intros P. symmetry. apply bytes_at_both; [lia| |exact S2]. change (2 ^ 32) with 4294967296. unfold r in *. lia. }
  destruct (0 <? r) eqn:Er.
  - apply Z.ltb_lt in Er. eapply leads_sys; [rewrite EK, ER; fold r; rewrite (proj2 (Z.ltb_lt 0 r) Er); reflexivity|]. intros cc kk Hc Hk. specialize (Qr cc kk Hc Hk).
    eapply leads_resumes; [exact Qr| | |intros y [= <-]; reflexivity|].
    + unfold sysret. cbn [rg]. destruct (rg s1); exact Qb.
    + rewrite EB by exact Er. reflexivity.
    + intros m2 H2. apply (shows_stack (mm s) m2 sp text vars t _ G HS); try reflexivity. apply same_except_stack. exact H2.
  - apply Z.ltb_ge in Er. assert (Ern : (0 <? r) = false) by (apply Z.ltb_ge; exact Er).
    destruct ((r =? -11) || (r =? -4)); (eapply leads_sys; [rewrite EK, ER; fold r; rewrite Ern; reflexivity|]); intros cc kk Hc Hk; specialize (Qr cc kk Hc Hk).
    + eapply leads_resumes; [exact Qr| |reflexivity|intros y [= <-]; reflexivity|].
      * unfold sysret. cbn [rg]. destruct (rg s1); exact Qb.
      * intros m2 H2. apply (shows_stack (mm s) m2 sp text vars t _ G HS); try reflexivity. apply same_except_stack. exact H2.
    + apply leads_there. split; [reflexivity|]. eexists. split; [reflexivity|]. split; [exact Qr|]. unfold sysret. cbn [mm].
      apply (shows_stack (mm s) (mm s) sp text vars t _ G HS); reflexivity.
Qed.
End Calls.

Lemma leads_mono w e (Q Q' : world -> event -> Prop) : leads w e Q -> (forall w e, Q w e -> Q' w e) -> leads w e Q'.
Proof.
  intros H. induction H as [w e Q HQ|w e e' Q C H IH|w s w' r m Q K H IH]; intros HM.
  - apply leads_there. apply HM. exact HQ.
  - eapply leads_on; [exact C|]. apply IH. exact HM.
  - eapply leads_sys; [exact K|]. intros c k Hc Hk. apply IH; assumption.
Qed.
Lemma agrees_rbx s s0 sp text vars t o w e : rget rbx (rg s) = rget rbx (rg s0) -> agrees s sp text vars t o w e -> agrees s0 sp text vars t o w e.
Proof. unfold agrees. intros E. rewrite E. auto. Qed.
Lemma sysret_rbx s1 r c k m : rget rbx (rg (sysret s1 r c k m)) = rget rbx (rg s1).
Proof. unfold sysret. cbn [rg]. destruct (rg s1); reflexivity. Qed.

Lemma link_debug_gen sp text vars answers : forall s t,
  imported s sp text vars -> memory_apart s sp text vars -> shows (mm s) text vars t -> answers_ok (wd t) -> w_debugs (wd t) = answers -> pc s = L_rt_debug ->
  leads (wd t) (More s) (fun w e => let (t', o) := rt_debug answers (arg1 (mm s) sp) (arg2 (mm s) sp) t in agrees s sp text vars t' o w e).
Proof.
  induction answers as [|r0 rest IH]; intros s t HI HA HS HW ED Hpc;
    pose proof (geometry_of _ _ _ _ HI HA) as G; pose proof (args_range s sp text vars HI) as (RA & RN); cbn [rt_debug]; unfold io_prologue; rewrite (size_same s text vars t HS).
  all: destruct (arg2 (mm s) sp =? 0) eqn:E0; [apply Z.eqb_eq in E0; apply (link_nothing s sp text vars t HI HA HS Debug); [exact Hpc|exact E0|intros y [= <-]; reflexivity]|].
  all: apply Z.eqb_neq in E0; destruct (memory_size (mm s) vars <? arg1 (mm s) sp + arg2 (mm s) sp) eqn:E1;
    [apply Z.ltb_lt in E1; apply (link_outside s sp text vars t HI HA HS Debug); [exact Hpc|lia|exact E1]|].
  all: apply Z.ltb_ge in E1; destruct (debug_ok s sp text vars HI Hpc HA ltac:(lia) E1) as (s1 & H1 & Q1 & Q2 & Q3 & Q4 & Qm & Qb & Qk);
    eapply leads_on; [exact H1|].
  all: assert (EK : forall w, kernel w s1 = sys_debug w (mm s) (v_memory (mm s) text + arg1 (mm s) sp) (arg2 (mm s) sp))
    by (intros w; unfold kernel; cbv zeta; rewrite Q1, Q2, Q3, Q4, Qm; reflexivity).
  { apply leads_there. split; [reflexivity|]. split; [reflexivity|]. split; [reflexivity|]. exists s1. split; [reflexivity|]. rewrite EK. unfold sys_debug. rewrite ED. reflexivity. }
  assert (RS : memory_size (mm s) vars < 4294967296) by (apply size_range).
  pose proof HW as [Win Wre Wwr Wdb Wpo]. pose proof HS as [S1 S2 S3 S4]. rewrite ED in Wdb. inversion Wdb as [|r' rest' Hr Wdb']; subst r' rest'.
  cbv zeta. set (r := Z.min r0 (arg2 (mm s) sp)) in *.
  pose proof (fun cc kk Hc Hk => Qk r cc kk Hc Hk ltac:(unfold r; lia)) as Qr. cbv zeta in Qr. rewrite Qm in Qr.
  unfold EINTR, ERR_RT_DEBUG. change (- (4)) with (-4).
  assert (EB : 0 < r -> bytes_at (mm s) (v_memory (mm s) text + arg1 (mm s) sp) (Z.to_nat r) = bytes_at (mem t) (arg1 (mm s) sp) (Z.to_nat r)).
  { intros P. symmetry. apply bytes_at_both; [lia| |exact S2]. change (2 ^ 32) with 4294967296. unfold r in *. lia. }
  assert (HWd : forall dbg, answers_ok (World (w_input (wd t)) (w_reads (wd t)) (w_writes (wd t)) rest (w_polls (wd t)) (w_times (wd t)) (w_random (wd t)) (w_resumes (wd t)) (w_sent (wd t)) dbg)).
  { intros dbg. constructor; assumption. }
  assert (SA : forall s2 dbg, (forall x, ~ (sp + 8 <= x < sp + 20) -> mm s2 x = mm s x) ->
     shows (mm s2) text vars (set_wd t (World (w_input (wd t)) (w_reads (wd t)) (w_writes (wd t)) rest (w_polls (wd t)) (w_times (wd t)) (w_random (wd t)) (w_resumes (wd t)) (w_sent (wd t)) dbg))).
  { intros s2 dbg X. apply (shows_stack (mm s) (mm s2) sp text vars t _ G HS); try reflexivity. intros x Hx. apply X. destruct G as (_ & G2 & _). lia. }
  destruct (0 <? r) eqn:Er.
  - assert (Erp : 0 < r) by (apply Z.ltb_lt; exact Er).
    eapply leads_sys; [rewrite EK; unfold sys_debug; rewrite ED; fold r; cbv zeta; rewrite Er, EB by exact Erp; reflexivity|]. intros cc kk Hc Hk. specialize (Qr cc kk Hc Hk).
    destruct (arg2 (mm s) sp - r =? 0) eqn:E2.
    + eapply leads_resumes; [exact Qr|rewrite sysret_rbx; exact Qb|reflexivity|intros y [= <-]; reflexivity|].
      intros m2 H2. apply (shows_stack (mm s) m2 sp text vars t _ G HS); try reflexivity. intros x Hx. destruct G as (_ & G2 & _). apply H2; [lia|].
      intros f n [[= <- <-]|[[= <- <-]|[]]]; lia.
    + destruct Qr as (s2 & C & P2 & I2 & A2 & B1 & B2 & B3 & B4). eapply leads_on; [exact C|].
      set (t1 := set_wd t _). specialize (IH s2 t1 I2 A2 ltac:(apply SA; exact B4) ltac:(apply HWd) eq_refl P2).
      rewrite B1, B2 in IH. eapply leads_mono; [exact IH|]. intros w e X. cbv beta in X |- *.
      destruct (rt_debug rest (arg1 (mm s) sp + r) (arg2 (mm s) sp - r) t1) as [t2 o2]. eapply agrees_rbx; [|exact X]. rewrite B3, sysret_rbx. exact Qb.
  - destruct (r =? 0) eqn:Ez; [|destruct (r =? -4) eqn:Ei].
    + eapply leads_sys; [rewrite EK; unfold sys_debug; rewrite ED; fold r; cbv zeta; rewrite Er; reflexivity|]. intros cc kk Hc Hk. specialize (Qr cc kk Hc Hk).
      eapply leads_resumes; [exact Qr|rewrite sysret_rbx; exact Qb|reflexivity|intros y [= <-]; reflexivity|].
      intros m2 H2. apply (shows_stack (mm s) m2 sp text vars t _ G HS); try reflexivity. apply same_except_stack. exact H2.
    + eapply leads_sys; [rewrite EK; unfold sys_debug; rewrite ED; fold r; cbv zeta; rewrite Er; reflexivity|]. intros cc kk Hc Hk. specialize (Qr cc kk Hc Hk).
      destruct Qr as (s2 & C & P2 & I2 & A2 & B1 & B2 & B3 & B4). eapply leads_on; [exact C|].
      set (t1 := set_wd t _). specialize (IH s2 t1 I2 A2 ltac:(apply SA; exact B4) ltac:(apply HWd) eq_refl P2).
      rewrite B1, B2 in IH. eapply leads_mono; [exact IH|]. intros w e X. cbv beta in X |- *.
      destruct (rt_debug rest (arg1 (mm s) sp) (arg2 (mm s) sp) t1) as [t2 o2]. eapply agrees_rbx; [|exact X]. rewrite B3, sysret_rbx. exact Qb.
    + eapply leads_sys; [rewrite EK; unfold sys_debug; rewrite ED; fold r; cbv zeta; rewrite Er; reflexivity|]. intros cc kk Hc Hk. specialize (Qr cc kk Hc Hk).
      apply leads_there. split; [reflexivity|]. eexists. split; [reflexivity|]. split; [exact Qr|]. unfold sysret. cbn [mm]. apply SA. reflexivity.
Qed.

Lemma link_debug s sp text vars t : imported s sp text vars -> memory_apart s sp text vars -> shows (mm s) text vars t -> answers_ok (wd t) -> pc s = L_rt_debug ->
  leads (wd t) (More s) (fun w e => let (t', o) := call_rt RtDebug [arg1 (mm s) sp; arg2 (mm s) sp] t in agrees s sp text vars t' o w e).
Proof.
  intros HI HA HS HW Hpc. eapply leads_mono; [apply (link_debug_gen sp text vars _ s t HI HA HS HW eq_refl Hpc)|].
  intros w e X. cbn [call_rt]. destruct (rt_debug (w_debugs (wd t)) (arg1 (mm s) sp) (arg2 (mm s) sp) t) as [t' o]. destruct o; try exact X.
  destruct X as (X0 & s2 & X1 & X2 & X3). split; [exact X0|]. exists s2. split; [exact X1|]. split; [discriminate|exact X3].
Qed.

Lemma link_stop s sp text vars t : imported s sp text vars -> shows (mm s) text vars t -> pc s = L_rt_stop -> w_resumes (wd t) = [] ->
  leads (wd t) (More s) (fun w e => let (t', o) := call_rt RtStop [arg2 (mm s) sp] t in agrees s sp text vars t' o w e).
Proof.
  intros HI HS Hpc HR. cbn [call_rt]. unfold rt_stop. rewrite HR. apply leads_there. split; [reflexivity|]. exists s. split; [reflexivity|]. split; [|exact HS].
  apply rt_stop_ok; assumption.
Qed.

Lemma reported_mod ev c : 0 <= c < 65536 -> reported (ev mod 2 ^ 16) c = reported ev c.
Proof.
  intros Hc. unfold reported. apply Z.bits_inj'. intros i Hi. rewrite !Z.land_spec, !Z.lor_spec.
  destruct (Z.lt_ge_cases i 16) as [L|L].
  - rewrite Z.mod_pow2_bits_low by lia. reflexivity.
  - replace (Z.testbit c i) with false; [reflexivity|]. symmetry. rewrite <- (Z.mod_small c (2 ^ 16)) by lia. apply Z.mod_pow2_bits_high. lia.
Qed.
Lemma reported_range ev c : 0 <= c < 65536 -> 0 <= reported ev c < 65536.
Proof.
  intros Hc. unfold reported. assert (E : forall k, Z.land c k = (Z.land c k) mod 2 ^ 16).
  { intros k. apply Z.bits_inj'. intros i Hi. destruct (Z.lt_ge_cases i 16) as [L|L].
    - rewrite Z.mod_pow2_bits_low by lia. reflexivity.
    - rewrite Z.mod_pow2_bits_high by lia. rewrite Z.land_spec. replace (Z.testbit c i) with false; [reflexivity|]. symmetry. rewrite <- (Z.mod_small c (2 ^ 16)) by lia. apply Z.mod_pow2_bits_high. lia. }
  rewrite E. change 65536 with (2 ^ 16). apply Z.mod_pos_bound. reflexivity.
Qed.
Lemma lnot_land r k : 0 <= r < 65536 -> 0 <= k < 65536 -> Z.land r (4294967295 - k) = Z.land r (Z.lnot k).
Proof.
  intros Hr Hk. replace (4294967295 - k) with (Z.lnot k mod 2 ^ 32).
  - apply Z.bits_inj'. intros i Hi. rewrite !Z.land_spec. destruct (Z.lt_ge_cases i 16) as [L|L].
    + rewrite Z.mod_pow2_bits_low by lia. reflexivity.
    + replace (Z.testbit r i) with false; [reflexivity|]. symmetry. rewrite <- (Z.mod_small r (2 ^ 16)) by lia. apply Z.mod_pow2_bits_high. lia.
  - unfold Z.lnot. replace (Z.pred (- k)) with (4294967295 - k + (-1) * 2 ^ 32) by lia. rewrite Z.mod_add by discriminate. apply Z.mod_small. lia.
Qed.

(* The kernel's answer, and what is made of it *)
Lemma ppoll_rt_poll m fds ev0 ev1 answers : forall t w,
  ld 2 m (fds + 4) = ev0 mod 2 ^ 16 -> ld 2 m (fds + 12) = ev1 mod 2 ^ 16 -> kernels w = kernels (wd t) ->
  Forall (fun a => match a with Revents c0 c1 => 0 <= c0 < 65536 /\ 0 <= c1 < 65536 | PollErrno e => 0 < e <= 4095 end) answers ->
  let (t', o) := rt_poll answers ev0 ev1 t in
  mem t' = mem t /\ pages t' = pages t /\ w_random (wd t') = w_random (wd t) /\ w_input (wd t') = w_input (wd t) /\ w_sent (wd t') = w_sent (wd t) /\ w_debug (wd t') = w_debug (wd t) /\
  match sys_ppoll answers w m fds with
  | Waiting => o = Blocked RtPoll
  | Answered w' r m' => kernels w' = kernels (wd t') /\ -4095 <= r <= 2 /\
      exists r0 r1, (forall a, (forall x, 0 <= m x < 256) -> 0 <= m' a < 256) /\ ld 2 m' (fds + 6) = r0 /\ ld 2 m' (fds + 14) = r1 /\
        (forall x, ~ (fds + 6 <= x < fds + 8) -> ~ (fds + 14 <= x < fds + 16) -> m' x = m x) /\
        o = match after_poll r r0 r1 with inl v => Next (Some v) | inr st => Exit st end
  | Unknown => False
  end.
Proof.
  induction answers as [|a rest IH]; intros t w E0 E1 HK HF; cbn [rt_poll sys_ppoll].
  { repeat split; reflexivity. }
  inversion HF as [|x l Ha HF']; subst x l.
  assert (HK' : forall t1 w1, w1 = World (w_input w) (w_reads w) (w_writes w) (w_debugs w) rest (w_times w) (w_random w) (w_resumes w) (w_sent w) (w_debug w) ->
     t1 = set_wd t (World (w_input (wd t)) (w_reads (wd t)) (w_writes (wd t)) (w_debugs (wd t)) rest (w_times (wd t)) (w_random (wd t)) (w_resumes (wd t)) (w_sent (wd t)) (w_debug (wd t))) ->
     kernels w1 = kernels (wd t1)).
  { intros t1 w1 -> ->. unfold kernels in *. cbn [wd set_wd w_input w_reads w_writes w_debugs w_polls w_times w_random w_resumes w_sent w_debug]. injection HK as X1 X2 X3 X4 X5 X6 X7 X8 X9. congruence. }
  cbv zeta. destruct a as [c0 c1|e].
  - destruct Ha as [H0 H1]. rewrite E0, E1. rewrite (reported_mod ev0 c0 H0), (reported_mod ev1 c1 H1).
    pose proof (reported_range ev0 c0 H0) as R0. pose proof (reported_range ev1 c1 H1) as R1.
    destruct ((reported ev0 c0 =? 0) && (reported ev1 c1 =? 0)) eqn:EZ.
    + specialize (IH (set_wd t (World (w_input (wd t)) (w_reads (wd t)) (w_writes (wd t)) (w_debugs (wd t)) rest (w_times (wd t)) (w_random (wd t)) (w_resumes (wd t)) (w_sent (wd t)) (w_debug (wd t))))
        (World (w_input w) (w_reads w) (w_writes w) (w_debugs w) rest (w_times w) (w_random w) (w_resumes w) (w_sent w) (w_debug w)) E0 E1 (HK' _ _ eq_refl eq_refl) HF').
      exact IH.
    + set (r0 := reported ev0 c0) in *. set (r1 := reported ev1 c1) in *.
      assert (EA : forall r, 1 <= r <= 2 -> (if negb (Z.land r0 (Z.lor POLLHUP POLLRDHUP) =? 0) then (set_wd t (World (w_input (wd t)) (w_reads (wd t)) (w_writes (wd t)) (w_debugs (wd t)) rest (w_times (wd t)) (w_random (wd t)) (w_resumes (wd t)) (w_sent (wd t)) (w_debug (wd t))), Next (Some 0))
         else if negb (Z.land r0 (Z.lnot POLLIN) =? 0) then (set_wd t (World (w_input (wd t)) (w_reads (wd t)) (w_writes (wd t)) (w_debugs (wd t)) rest (w_times (wd t)) (w_random (wd t)) (w_resumes (wd t)) (w_sent (wd t)) (w_debug (wd t))), Exit ERR_RT_POLL)
         else if negb (Z.land r1 (Z.lnot POLLOUT) =? 0) then (set_wd t (World (w_input (wd t)) (w_reads (wd t)) (w_writes (wd t)) (w_debugs (wd t)) rest (w_times (wd t)) (w_random (wd t)) (w_resumes (wd t)) (w_sent (wd t)) (w_debug (wd t))), Exit ERR_RT_POLL)
         else (set_wd t (World (w_input (wd t)) (w_reads (wd t)) (w_writes (wd t)) (w_debugs (wd t)) rest (w_times (wd t)) (w_random (wd t)) (w_resumes (wd t)) (w_sent (wd t)) (w_debug (wd t))), Next (Some (Z.lor r0 r1)))) =
         (set_wd t (World (w_input (wd t)) (w_reads (wd t)) (w_writes (wd t)) (w_debugs (wd t)) rest (w_times (wd t)) (w_random (wd t)) (w_resumes (wd t)) (w_sent (wd t)) (w_debug (wd t))),
          match after_poll r r0 r1 with inl v => Next (Some v) | inr st => Exit st end)).
      { intros r Hr. unfold after_poll. replace (0 <? r) with true by (symmetry; apply Z.ltb_lt; lia).
        change (Z.lor POLLHUP POLLRDHUP) with 8208. change 4294967294 with (4294967295 - POLLIN). change 4294967291 with (4294967295 - POLLOUT).
        rewrite !lnot_land by (unfold POLLIN, POLLOUT; lia). unfold ERR_RT_POLL.
        destruct (negb (Z.land r0 8208 =? 0)); [reflexivity|]. destruct (negb (Z.land r0 (Z.lnot POLLIN) =? 0)); [reflexivity|].
        destruct (negb (Z.land r1 (Z.lnot POLLOUT) =? 0)); reflexivity. }
      assert (RR : 1 <= (if r0 =? 0 then 0 else 1) + (if r1 =? 0 then 0 else 1) <= 2).
      { destruct (r0 =? 0), (r1 =? 0); simpl in EZ; try discriminate EZ; lia. }
      rewrite (EA _ RR). cbn [mem pages wd set_wd w_random w_input w_sent w_debug].
      do 6 (split; [reflexivity|]). split; [apply (HK' _ _ eq_refl eq_refl)|]. split; [lia|].
      exists r0, r1. split; [intros a Hm; apply sto_range; apply sto_range; exact Hm|].
      split; [rewrite ld_sto_other by lia; apply ld_sto_same; change (2 ^ (8 * Z.of_nat 2)) with 65536; lia|].
      split; [apply ld_sto_same; change (2 ^ (8 * Z.of_nat 2)) with 65536; lia|].
      split; [intros x Hx1 Hx2; rewrite !sto_other by lia; reflexivity|]. reflexivity.
  - cbn [mem pages wd set_wd]. unfold EAGAIN, EINTR, ERR_RT_POLL.
    destruct ((e =? 11) || (e =? 4)) eqn:EE; cbn [mem pages wd set_wd w_random w_input w_sent w_debug];
      do 6 (split; [reflexivity|]); (split; [apply (HK' _ _ eq_refl eq_refl)|]); (split; [lia|]); exists (ld 2 m (fds + 6)), (ld 2 m (fds + 14));
      (split; [intros a Hm; apply Hm|]); (split; [reflexivity|]); (split; [reflexivity|]); (split; [reflexivity|]);
      unfold after_poll; replace (0 <? - e) with false by (symmetry; apply Z.ltb_ge; lia).
    + replace ((- e =? -11) || (- e =? -4)) with true; [reflexivity|]. symmetry. apply orb_true_iff in EE. apply orb_true_iff. rewrite !Z.eqb_eq in *. lia.
    + replace ((- e =? -11) || (- e =? -4)) with false; [reflexivity|]. symmetry. apply orb_false_iff in EE. apply orb_false_iff. rewrite !Z.eqb_neq in *. lia.
Qed.

Lemma link_poll s sp text vars t : imported s sp text vars -> memory_apart s sp text vars -> shows (mm s) text vars t -> answers_ok (wd t) -> pc s = L_rt_poll ->
  leads (wd t) (More s) (fun w e => let (t', o) := call_rt RtPoll [arg1 (mm s) sp; arg2 (mm s) sp] t in agrees s sp text vars t' o w e).
Proof.
  intros HI HA HS HW Hpc. pose proof (geometry_of _ _ _ _ HI HA) as G. cbn [call_rt].
  destruct (poll_ok s sp text vars HI Hpc) as (s1 & H1 & Q1 & Q2 & Q3 & Q4 & Q5 & Q6 & Q7 & P0 & P1 & P2 & P3 & P4 & Qk).
  eapply leads_on; [exact H1|].
  assert (EK : forall w, kernel w s1 = sys_ppoll (w_polls w) w (mm s1) (sp - 16)).
  { intros w. unfold kernel. cbv zeta. rewrite Q1, Q2, Q3, Q4, Q5. rewrite P1. replace (sp - 16 + 8) with (sp - 8) by lia. rewrite P3. reflexivity. }
  pose proof HW as [_ _ _ _ Wpo].
  pose proof (ppoll_rt_poll (mm s1) (sp - 16) (arg1 (mm s) sp) (arg2 (mm s) sp) (w_polls (wd t)) t (wd t)
    ltac:(replace (sp - 16 + 4) with (sp - 12) by lia; exact P2) ltac:(replace (sp - 16 + 12) with (sp - 4) by lia; exact P4) eq_refl Wpo) as X.
  destruct (rt_poll (w_polls (wd t)) (arg1 (mm s) sp) (arg2 (mm s) sp) t) as [t' o]. destruct X as (X1 & X2 & X3 & X4 & X5 & X6 & X).
  specialize (EK (wd t)). destruct (sys_ppoll (w_polls (wd t)) (wd t) (mm s1) (sp - 16)) as [w' r m'| |]; [| |contradiction X].
  2: { subst o. apply leads_there. split; [congruence|]. split; [congruence|]. split; [congruence|]. exists s1. split; [reflexivity|]. exact EK. }
  destruct X as (Xk & Xr & r0 & r1 & Xm & Xl0 & Xl1 & Xo & ->).
  eapply leads_sys; [exact EK|]. intros c k Hc Hk.
  assert (M1 : forall x, ~ (vars + 64 <= x < sp + 20) -> m' x = mm s x).
  { destruct G as (G1 & G2 & _). intros x Hx. rewrite Xo by lia. apply Q7; [lia|]. intros f n []. }
  assert (KR : kernel_revents (mm s1) m' (sp - 16) r0 r1).
  { split; [intros x; apply Xm; exact P0|]. split; [exact Xl0|]. split; [exact Xl1|exact Xo]. }
  specialize (Qk r c k m' r0 r1 Hc Hk Xr KR). destruct (after_poll r r0 r1) as [v|code].
  - eapply leads_resumes; [exact Qk|rewrite sysret_rbx; exact Q6|exact Xk|intros y [= <-]; reflexivity|].
    intros m2 H2. apply (shows_stack (mm s) m2 sp text vars t t' G HS); try assumption. intros x Hx.
    rewrite (same_except_stack _ _ _ _ H2 x Hx). apply M1. exact Hx.
  - apply leads_there. split; [exact Xk|]. eexists. split; [reflexivity|]. split; [exact Qk|]. unfold sysret. cbn [mm].
    apply (shows_stack (mm s) m' sp text vars t t' G HS); assumption.
Qed.
