(* RuntimeSignalProofs.v: effects of the handlers on the interrupted program; the guest's clock. *)
From Verif Require Import RuntimeSpec AsmProofs RuntimeSigProofs RuntimeSched.
From Coq Require Import Lia ZArith Znumtheory List Bool Sorted.
Import ListNotations.
Local Open Scope Z_scope.

(** * Memory has bytes *)

Definition bytes (m : Z -> Z) : Prop := forall a, 0 <= m a < 256.
Definition event_bytes (e : event) : Prop :=
  match e with More s | AtSyscall s | Outside _ s | Breakpoint s => bytes (mm s) | Stuck => True end.
Lemma put_bytes w o v s : bytes (mm s) -> bytes (mm (put w o v s)).
Proof. intros H. destruct o; cbn [put set_rg set_mm mm]; try exact H. intros y. apply sto_range. exact H. Qed.
Lemma push_bytes v s : bytes (mm s) -> bytes (mm (push v s)).
Proof. intros H. unfold push. cbv zeta. cbn [set_mm set_rg mm]. intros x. apply sto_range. exact H. Qed.
Lemma goto_bytes n a s : bytes (mm s) -> event_bytes (goto n a s).
Proof. intros H. unfold goto. destruct (_ && _); exact H. Qed.
Lemma exec_bytes n i s : bytes (mm s) -> event_bytes (exec n i s).
Proof.
  intros H. destruct i; cbn [exec]; cbv zeta; unfold next, jump, pop; cbv zeta; cbn [event_bytes set_pc set_flags set_rg mm];
    repeat apply put_bytes; try apply push_bytes; try exact H.
  - destruct src; cbn [event_bytes set_pc set_rg mm]; [exact Logic.I|exact Logic.I|exact H].
  - destruct (cond_holds _ _ _) as [[|]|]; cbn [event_bytes set_pc mm]; try exact H; exact Logic.I.
  - apply goto_bytes. exact H.
  - destruct (zf s); [|exact Logic.I]. cbn [event_bytes set_pc mm]. apply put_bytes. exact H.
Qed.
Lemma step_bytes s : bytes (mm s) -> event_bytes (step runtime s).
Proof. intros H. unfold step. destruct (nth_error _ _); [apply exec_bytes; exact H|exact Logic.I]. Qed.
Lemma comes_bytes e e' : comes_to e e' -> event_bytes e -> event_bytes e'.
Proof.
  intros [n H]. revert e H. induction n as [|n IH]; intros e H He; [cbn [continue_] in H; subst; exact He|].
  destruct e; cbn [continue_] in H; try (subst; exact He). eapply IH; [exact H|]. apply step_bytes. exact He.
Qed.

(** * Handlers *)

Lemma suspend_effect s h signum uc vars :
  delivered s h signum uc vars -> signum <> SIGSEGV -> (pc s < 340)%nat -> (forall a, 0 <= mm s a < 256) ->
  exists h2, comes_to (More h) (AtSyscall h2) /\ rget rax (rg h2) = SYS_rt_sigreturn /\
    exists s', sigreturned s h2 uc = More s' /\ signalled vars s s'.
Proof.
  intros HD Hn Hpc Hms. destruct HD as [HI Hc Hm].
  destruct (suspend_signal _ _ _ _ _ _ _ HI Hn) as (h2 & Hrun & Hax & _ & Hbx & Hsu & Hrest). destruct HI.
  assert (Hb : bytes (mm h2)) by (exact (comes_bytes _ _ Hrun in_mem)).
  assert (E1 : ld 8 (mm h2) (uc_rip uc) = cbase s + Z.of_nat (pc s)).
  { rewrite <- in_rip. apply ld_ext. intros x Hx. change (Z.of_nat 8) with 8 in Hx. unfold uc_rip, uc_rsp, uc_rbx in *. apply Hrest; lia. }
  assert (E2 : ld 8 (mm h2) (uc_rsp uc) = rget rsp (rg s)).
  { rewrite <- in_rsp. apply ld_ext. intros x Hx. change (Z.of_nat 8) with 8 in Hx. unfold uc_rip, uc_rsp, uc_rbx in *. apply Hrest; lia. }
  exists h2. split; [exact Hrun|]. split; [exact Hax|].
  eexists. split.
  { unfold sigreturned. rewrite E1, goto_rt; [reflexivity|reflexivity|lia]. }
  exists (mm h2). split; [|split; [exact Hb|split]].
  - unfold set_pc. cbn [rg zf lt cbase mm]. rewrite Nat2Z.id, Hbx, E2.
    replace (s_suspend (mm h) vars) with (s_suspend (mm s) vars).
    2: { unfold s_suspend. symmetry. apply ld_ext. intros x Hx. change (Z.of_nat 4) with 4 in Hx. apply Hm. lia. }
    unfold protected. rewrite Z.negb_odd. f_equal. destruct (rg s). reflexivity.
  - rewrite Hsu. f_equal. unfold s_suspend. apply ld_ext. intros x Hx. change (Z.of_nat 4) with 4 in Hx. apply Hm. lia.
  - intros a Ha1 Ha2. rewrite Hrest by (unfold uc_rbx; lia). apply Hm. exact Ha1.
Qed.

(* A memory access fault of the guest program *)
Lemma segv_effect s h uc sp text vars :
  delivered s h SIGSEGV uc vars -> imported s sp text vars -> 520 <= sp - vars ->
  exists h2 s', comes_to (More h) (AtSyscall h2) /\ rget rax (rg h2) = SYS_rt_sigreturn /\
    sigreturned s h2 uc = More s' /\ exits_with s' (sp - 8) text vars 105 /\ ld 8 (mm s') (sp - 8) = cbase s + Z.of_nat (pc s) /\
    (forall a, ~ (vars + 64 <= a < sp) -> mm s' a = mm s a).
Proof.
  intros HD Hi Hroom. destruct HD as [HI Hc Hm].
  destruct (segv_signal _ _ _ _ _ _ HI) as (h2 & Hrun & Hax & _ & Hs1 & Hs2 & Hip & Hrest). destruct HI.
  assert (Hb : bytes (mm h2)) by (exact (comes_bytes _ _ Hrun in_mem)).
  assert (Esp : rget rsp (rg s) = sp) by (destruct Hi; assumption). rewrite Esp in *.
  assert (Ebx : ld 8 (mm h2) (uc_rbx uc) = rget rbx (rg s)).
  { rewrite <- in_rbx. apply ld_ext. intros x Hx. change (Z.of_nat 8) with 8 in Hx. unfold uc_rip, uc_rsp, uc_rbx in *. apply Hrest; lia. }
  assert (Eg : rset rbx (rget rbx (rg s)) (rset rsp (sp - 8) (rg s)) = rset rsp (sp - 8) (rg s)) by (destruct (rg s); reflexivity).
  exists h2. eexists. split; [exact Hrun|]. split; [exact Hax|]. split.
  { unfold sigreturned. rewrite Hip, goto_in with (n := Z.of_nat L_Lsigsegv_exit); [reflexivity|cbn [cbase]; rewrite Hc; reflexivity|vm_compute; split; congruence]. }
  assert (Hout : forall a, ~ (vars + 64 <= a < sp) -> mm h2 a = mm s a).
  { intros a Ha. rewrite Hrest by (unfold uc_rsp, uc_rip; lia). apply Hm. lia. }
  unfold set_pc. cbn [rg zf lt cbase mm]. rewrite Hs1, Ebx, Eg. split; [|split; [exact Hs2|exact Hout]].
  apply sigsegv_exit_ok; [|reflexivity].
  destruct Hi. constructor; cbn [rg mm cbase pc]; try assumption.
  - destruct (rg s); reflexivity.
  - rewrite <- im_text. destruct (rg s); reflexivity.
  - rewrite <- im_limit. destruct (rg s); reflexivity.
  - intros r. assert (Hr : rget r (rset rsp (sp - 8) (rg s)) = if match r with rsp => true | _ => false end then sp - 8 else rget r (rg s)) by (destruct (rg s), r; reflexivity).
    rewrite Hr. destruct r; try apply im_regs. cbn match. change (2 ^ 47) with 140737488355328 in *. change (2 ^ 64) with 18446744073709551616. lia.
  - lia.
  - lia.
  - assert (E88 : ld 8 (mm h2) (text - 88) = ld 8 (mm s) (text - 88)).
    { apply ld_ext. intros x Hx. change (Z.of_nat 8) with 8 in Hx. apply Hout. lia. }
    rewrite E88. exact im_vdso.
Qed.

(** * Clock *)

Lemma nano_mono r1 r2 mask k :
  0 <= k <= 30 -> (forall t, 0 <= t < 2 ^ 32 -> Z.land t mask = t - t mod 2 ^ k) -> reading r1 -> reading r2 -> earlier r1 r2 ->
  nanoseconds (fst r1) (snd r1) mask <= nanoseconds (fst r2) (snd r2) mask.
Proof.
  intros Hk Hm [R1 R1'] [R2 R2'] He. unfold nanoseconds.
  assert (P : 0 < 2 ^ k) by (apply Z.pow_pos_nonneg; lia).
  change (10 ^ 9) with 1000000000 in *. change (2 ^ 32) with 4294967296 in *.
  rewrite !Hm by lia.
  pose proof (Z.mod_pos_bound (snd r1) _ P). pose proof (Z.mod_pos_bound (snd r2) _ P).
  pose proof (Z.mod_le (snd r2) (2 ^ k) ltac:(lia) P).
  destruct He as [He|[He He']]; [lia|]. rewrite He.
  assert (D : snd r1 / 2 ^ k <= snd r2 / 2 ^ k) by (apply Z.div_le_mono; lia).
  pose proof (Z.div_mod (snd r1) (2 ^ k) ltac:(lia)). pose proof (Z.div_mod (snd r2) (2 ^ k) ltac:(lia)). nia.
Qed.
Lemma nano_bound r mask k :
  0 <= k <= 30 -> (forall t, 0 <= t < 2 ^ 32 -> Z.land t mask = t - t mod 2 ^ k) -> reading r ->
  0 <= nanoseconds (fst r) (snd r) mask < 2 ^ 33 * 10 ^ 9.
Proof.
  intros Hk Hm [R1 R1']. unfold nanoseconds. assert (P : 0 < 2 ^ k) by (apply Z.pow_pos_nonneg; lia).
  rewrite Hm by (change (10 ^ 9) with 1000000000 in *; change (2 ^ 32) with 4294967296; lia).
  pose proof (Z.mod_pos_bound (snd r) _ P). pose proof (Z.mod_le (snd r) (2 ^ k) ltac:(lia) P).
  change (2 ^ 33) with 8589934592 in *. change (10 ^ 9) with 1000000000 in *. lia.
Qed.
Lemma earlier_trans a b c : earlier a b -> earlier b c -> earlier a c.
Proof. unfold earlier. intros. lia. Qed.
Lemma in_order_head a l : in_order (a :: l) -> Forall (earlier a) l /\ in_order l.
Proof.
  revert a. induction l as [|b l IH]; intros a H; [split; [constructor|exact Logic.I]|].
  destruct H as [H1 H2]. split; [|exact H2]. constructor; [exact H1|]. destruct (IH b H2) as [H3 _].
  eapply Forall_impl; [|exact H3]. intros c Hc. eapply earlier_trans; eassumption.
Qed.
Lemma sees_eq i r :
  clocked i -> reading r -> earlier (in_start i) r ->
  sees i r = s_monotonic (in_memory i) (in_vars i) + (nanoseconds (fst r) (snd r) (in_mask i) - nanoseconds (fst (in_start i)) (snd (in_start i)) (in_mask i)) /\
  s_monotonic (in_memory i) (in_vars i) <= sees i r.
Proof.
  intros (HF & HO & Hmask & Hbase & (k & Hk & Hm) & H0 & H1) Hr He. inversion HF as [|x l Hs HF']; subst x l.
  pose proof (nano_mono _ _ _ _ Hk Hm Hs Hr He) as N. pose proof (nano_bound _ _ _ Hk Hm Hs) as B1. pose proof (nano_bound _ _ _ Hk Hm Hr) as B2.
  unfold sees, guest_time. cbv zeta. change (6 =? 6) with true. cbn match. rewrite Hmask, Hbase.
  change (2 ^ 33 * 10 ^ 9) with 8589934592000000000 in *.
  rewrite Z.mod_small by lia. lia.
Qed.
Lemma sees_mono i r1 r2 :
  clocked i -> reading r1 -> reading r2 -> earlier (in_start i) r1 -> earlier r1 r2 -> sees i r1 <= sees i r2.
Proof.
  intros Hc R1 R2 E1 E2. destruct (sees_eq i r1 Hc R1 E1) as [-> _]. destruct (sees_eq i r2 Hc R2 (earlier_trans _ _ _ E1 E2)) as [-> _].
  destruct Hc as (_ & _ & _ & _ & (k & Hk & Hm) & _). pose proof (nano_mono _ _ _ _ Hk Hm R1 R2 E2). lia.
Qed.
Lemma sorted_app l1 : forall l2, StronglySorted Z.le l1 -> StronglySorted Z.le l2 -> (forall a b, In a l1 -> In b l2 -> a <= b) -> StronglySorted Z.le (l1 ++ l2).
Proof.
  induction l1 as [|x l1 IH]; intros l2 H1 H2 H; [exact H2|]. inversion H1; subst. cbn [app]. constructor.
  - apply IH; try assumption. intros a b Ha Hb. apply H; [right; exact Ha|exact Hb].
  - apply Forall_app. split; [assumption|]. apply Forall_forall. intros b Hb. apply H; [left; reflexivity|exact Hb].
Qed.
Lemma sorted_sees i : clocked i -> forall l r, reading r -> earlier (in_start i) r -> Forall reading l -> in_order (r :: l) -> StronglySorted Z.le (map (sees i) (r :: l)).
Proof.
  intros Hc l. induction l as [|r2 l IH]; intros r Hr He HF HO.
  - repeat constructor.
  - inversion HF; subst. pose proof HO as HO'. apply in_order_head in HO' as [HA HB]. cbn [map]. constructor.
    + destruct HO as [HO1 HO2]. apply IH; try assumption. eapply earlier_trans; eassumption.
    + apply Forall_forall. intros y Hy. apply (in_map_iff (sees i) (r2 :: l)) in Hy as (z & <- & Hz).
      rewrite Forall_forall in HA, HF. apply sees_mono; auto.
Qed.
Lemma exit_last i r : clocked i -> In r (in_reads i ++ [in_exit i]) -> s_monotonic (in_memory i) (in_vars i) <= sees i r <= sees i (in_exit i).
Proof.
  intros Hc Hin. pose proof Hc as (HF & HO & _). apply in_order_head in HO as [HA HO]. inversion HF as [|x l Hs HF']; subst x l.
  rewrite Forall_forall in HA, HF'. split; [apply sees_eq; auto|].
  assert (Hlast : forall l, in_order (l ++ [in_exit i]) -> In r (l ++ [in_exit i]) -> r = in_exit i \/ earlier r (in_exit i)).
  { clear. induction l as [|a l IH]; intros HO Hin.
    - cbn in Hin. destruct Hin as [<-|[]]. left. reflexivity.
    - cbn [app] in *. pose proof (in_order_head _ _ HO) as [HA HO']. destruct Hin as [<-|Hin]; [|apply IH; assumption].
      right. rewrite Forall_forall in HA. apply HA. apply in_or_app. right. left. reflexivity. }
  destruct (Hlast _ HO Hin) as [->|He]; [apply Z.le_refl|]. apply sees_mono; auto. apply HF'. apply in_or_app. right. left. reflexivity.
Qed.
Lemma seen_from l : Forall clocked l -> chained l -> forall i t, l = i :: t -> forall v, In v (seen l) -> s_monotonic (in_memory i) (in_vars i) <= v.
Proof.
  induction l as [|i0 l IH]; intros HF HC i t E v Hv; [discriminate|]. injection E as -> ->. inversion HF; subst.
  unfold seen in Hv. cbn [flat_map] in Hv. apply in_app_or in Hv as [Hv|Hv].
  - apply in_map_iff in Hv as (r & <- & Hr). apply exit_last; assumption.
  - destruct t as [|j t]; [destruct Hv|]. destruct HC as [HC1 HC2].
    pose proof (IH H2 HC2 j t eq_refl v Hv). rewrite HC1 in *.
    pose proof (exit_last i (in_exit i) H1 ltac:(apply in_or_app; right; left; reflexivity)). lia.
Qed.
Lemma clock_life l : Forall clocked l -> chained l -> StronglySorted Z.le (seen l).
Proof.
  induction l as [|i l IH]; intros HF HC; [constructor|]. inversion HF as [|x l' Hi HF']; subst x l'. unfold seen. cbn [flat_map].
  assert (HC' : chained l) by (destruct l; [exact Logic.I|exact (proj2 HC)]).
  apply sorted_app; [|apply IH; assumption|].
  - pose proof Hi as (HFR & HO & _). inversion HFR as [|x l' Hs HFR']; subst x l'. pose proof (in_order_head _ _ HO) as [HA HO'].
    destruct (in_reads i ++ [in_exit i]) as [|r rs] eqn:E; [destruct (in_reads i); discriminate|].
    inversion HFR'; subst. inversion HA; subst. apply sorted_sees; assumption.
  - intros a b Ha Hb. apply in_map_iff in Ha as (r & <- & Hr).
    destruct l as [|j l]; [destruct Hb|]. destruct HC as [HC1 HC2].
    pose proof (seen_from (j :: l) HF' HC' j l eq_refl b Hb). pose proof (exit_last i r Hi Hr). lia.
Qed.
