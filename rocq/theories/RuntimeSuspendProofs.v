(* RuntimeSuspendProofs.v: whatever happens while a runtime function is executed, a suspend signal isn't lost. *)
From Verif Require Import RuntimeSpec RuntimeSched RuntimeCheck AsmProofs RuntimeTimeProofs RuntimeCheckProofs.
From Coq Require Import Lia ZArith Znumtheory List Bool.
Import ListNotations.
Local Open Scope Z_scope.

Ltac fin H := solve [discriminate H | injection H as <-; left; eexists; reflexivity].
Lemma non_nexts pc i A out : t_plain pc i A = Some out -> (exists l, out = Nexts l) \/ i = Syscall \/ i = Ret.
Proof.
  intros H. destruct i as [w src dst|o w src dst|w src dst|w src dst|src r|l r|l|c l|l| |r|r|w r m|w a r|r|w r|w n r|w n r| | |]; cbn [t_plain] in H; try (fin H).
  - destruct dst as [r| |b [x|] off]; try (fin H).
    + destruct (_ && _); fin H.
    + destruct (w48 w); try (fin H). destruct (astore _ _ _ _ _); fin H.
  - destruct dst as [r| |b [x|] off]; try (fin H).
    + destruct (w48 w); try (fin H). destruct (special r); cbn [negb] in H; try (fin H). unfold t_alu_special in H. destruct r; try (fin H).
      * destruct src as [[]| |]; try (fin H). destruct o; try (fin H). destruct (aph A); try (fin H). destruct (areg A rax); try (fin H). destruct (_ && _); fin H.
      * destruct src; try (fin H). destruct (areg A rsp); try (fin H). cbv zeta in H. destruct (match o with Asm.Add => Some (k + z) | Asm.Sub => Some (k - z) | _ => None end); try (fin H). destruct (_ && _); fin H.
    + unfold t_alu_mem in H. destruct b; try (fin H).
      * destruct src; try (fin H). destruct o; try (fin H). destruct (aph A); try (fin H). destruct (_ && _); fin H.
      * destruct src, o, (aph A), (w =? 4); try (fin H); destruct (astore _ _ _ _ _); fin H.
  - destruct (size_ok w); fin H.
  - destruct (size_ok w); fin H.
  - destruct src; try (fin H). destruct (special r); fin H.
  - destruct (flags_for c A); fin H.
  - destruct (areg A rsp); try (fin H). destruct (_ && _); fin H.
  - right. right. reflexivity.
  - destruct (areg A rsp); try (fin H). destruct (_ <=? _); fin H.
  - destruct (areg A rsp); try (fin H). destruct (_ <=? _); try (fin H). unfold t_pop in H. cbv zeta in H. destruct r, (slot k (aslots A)); try (fin H); try (destruct (aph A); fin H); cbn [is_text] in H; try (fin H); try (destruct (_ =? _); fin H).
  - destruct r; try (fin H). destruct m as [| |b [x|] off]; try (fin H); destruct b; try (fin H). destruct (aph A); try (fin H). destruct (_ && _); fin H.
  - destruct (_ || _); fin H.
  - destruct (_ || _); fin H.
  - destruct (_ || _); fin H.
  - destruct (_ || _); fin H.
  - right. left. reflexivity.
Qed.
Lemma leave_shape pc i A ck A1 nx : atrans pc i A = Some (Leave ck A1 nx) ->
  exists k, areg A1 rsp = Sp k /\ aslots A1 = aslots A /\ aph A1 = aph A /\
  if ck then aph A = P1 /\ exists j l, areg A1 rsi = Sp j /\ slot k (aslots A) = Code l /\ k + 8 <= 0 /\ k + 8 <= j /\ j + 16 <= 0 /\ nx = Some (l, after_clock k j A1)
  else aph A = P0 /\ ((k = 0 /\ nx = None) \/ exists l, slot k (aslots A) = Code l /\ k + 8 <= 0 /\ nx = Some (l, after_resume k A1)).
Proof.
  unfold atrans. intros H.
  assert (Hpl : t_plain pc i A = Some (Leave ck A1 nx)).
  { destruct (aph A) eqn:Ep; try exact H.
    - exfalso. destruct i as [| | |w src dst| | | | | | | | | | | | | | | | |]; try discriminate. cbn in H. destruct src; try discriminate. destruct dst as [[]| |]; try discriminate. destruct (_ && _); discriminate.
    - exfalso. destruct i; try discriminate. cbn in H. destruct c; try discriminate. destruct (azf A); discriminate. }
  clear H. destruct (non_nexts _ _ _ _ Hpl) as [[l Hl]|[-> | ->]]; [discriminate| |].
  - exfalso. cbn in Hpl. destruct (aph A); try discriminate. destruct (areg A rax); try discriminate. destruct (z =? SYS_exit_group); try discriminate. destruct (_ || _); discriminate.
  - cbn [t_plain] in Hpl. destruct (areg A rsp) as [| | |k| | | | |] eqn:Es; try discriminate. destruct (_ <=? _); try discriminate. unfold t_ret in Hpl. cbv zeta in Hpl.
    destruct (slot k (aslots A)) eqn:E0; try discriminate.
    + destruct k0 as [|p|]; try discriminate. destruct p as [p|p|]; try discriminate. destruct p as [p|p|]; try discriminate. destruct p as [p|p|]; try discriminate. destruct p as [p|p|]; try discriminate. destruct p as [p|p|]; try discriminate.
      destruct (aph A) eqn:Ep; try discriminate. destruct (k + 8 =? 0) eqn:Ek.
      * injection Hpl as <- <- <-. apply Z.eqb_eq in Ek. exists (k + 8). cbn [areg put_reg aslots aph]. split; [reflexivity|]. split; [reflexivity|]. split; [exact Ep|]. split; [reflexivity|]. left. auto.
      * destruct (slot (k + 8) (aslots A)) eqn:E1; try discriminate. destruct (k + 16 <=? 0) eqn:E2; [|discriminate]. apply Z.leb_le in E2. injection Hpl as <- <- <-.
        exists (k + 8). cbn [areg put_reg aslots aph]. split; [reflexivity|]. split; [reflexivity|]. split; [exact Ep|]. split; [reflexivity|]. right. exists l. split; [exact E1|]. split; [lia|reflexivity].
    + destruct (aph A) eqn:Ep; try discriminate. destruct (slot (k + 8) (aslots A)) eqn:E1; try discriminate.
      match type of Hpl with context [match ?x with Top => _ | _ => _ end] => destruct x as [| | |j| | | | |] eqn:E3; try discriminate end. destruct (_ && _) eqn:E2; [|discriminate].
      apply andb_prop in E2 as [E2 E5]. apply andb_prop in E2 as [E2 E4]. apply Z.leb_le in E2. apply Z.leb_le in E4. apply Z.leb_le in E5. injection Hpl as <- <- <-.
      exists (k + 8). split; [reflexivity|]. split; [reflexivity|]. split; [exact Ep|]. split; [reflexivity|]. exists j, l. split; [exact E3|]. split; [exact E1|]. split; [lia|]. split; [lia|]. split; [lia|reflexivity].
Qed.

Lemma visit_visited n p A : (if existsb (Nat.eqb p) entries then like_entry A else explore n p A) = true -> visited p A.
Proof. intros H. exists n. exact H. Qed.

(** * Each move *)

Lemma inv_step C s g : ctx_ok C -> inv C (More s) g ->
  inv C (step runtime s) g /\ (forall s', step runtime s = More s' \/ step runtime s = AtSyscall s' \/ (exists a, step runtime s = Outside a s') -> stays C (mm s) (mm s')).
Proof.
  intros HC (n & A & HG & He). destruct n as [|n]; [discriminate|]. cbn [explore] in He. unfold step.
  destruct (nth_error runtime (pc s)) as [i|] eqn:Ei; [|discriminate].
  assert (Hl : (pc s < 340)%nat) by (change 340%nat with (length runtime); apply nth_error_Some; rewrite Ei; discriminate).
  destruct (atrans (pc s) i A) as [out|] eqn:Ea; [|discriminate].
  pose proof (atrans_ok C A g s i out HC HG Hl Ea) as Ho. destruct out as [l|A1 nx|ck A1 nx]; cbn [out_ok] in Ho.
  - destruct Ho as (s' & A' & Hex & Hin & HG' & Hst). rewrite Hex. split.
    + rewrite forallb_forall in He. specialize (He _ Hin). cbn [fst snd] in He. eapply visited_inv; [eapply visit_visited; exact He|exact HG'].
    + intros s2 [H|[H|[a H]]]; try discriminate. injection H as <-. exact Hst.
  - destruct Ho as (s' & Hex & Hpc & HG' & Hmm). rewrite Hex. destruct (sysc_shape _ _ _ _ _ Ea) as (-> & Hp & z & Hz & Hnx). split.
    + pose proof (ga_regs _ _ _ _ HG' rax) as Hr. rewrite Hz in Hr. cbn [val_is] in Hr. cbn [inv]. rewrite Hr. destruct (z =? SYS_exit_group) eqn:Ez.
      * apply Z.eqb_eq in Ez. subst z. split; [cbn; tauto|]. exists A. split; [exact HG'|]. split; [exact Hp|left; reflexivity].
      * destruct Hnx as [Hin ->]. split; [exact Hin|]. exists A. split; [exact HG'|]. split; [exact Hp|right]. rewrite Hpc. eapply visit_visited. exact He.
    + intros s2 [H|[H|[a H]]]; try discriminate. injection H as <-. rewrite Hmm. apply stays_refl.
  - destruct Ho as (s' & Hex & HG' & Hmm). rewrite Hex. destruct (leave_shape _ _ _ _ _ _ Ea) as (k & Hk & Hs & Hp1 & Hnx). split.
    + cbn [inv]. destruct ck.
      * left. split; [reflexivity|]. destruct Hnx as (Hp & j & l & Hj & Hsl & H1 & H2 & H3 & ->). exists A1, k, j, l. rewrite Hs, Hp1. repeat (split; [assumption|]). eapply visit_visited. exact He.
      * right. split; [reflexivity|]. exists A1, k. rewrite Hs, Hp1. destruct Hnx as [Hp Hnx]. split; [exact HG'|]. split; [exact Hp|]. split; [exact Hk|].
        destruct Hnx as [[-> ->]|(l & Hsl & H1 & ->)]; [left; reflexivity|]. right. exists l. split; [exact Hsl|]. split; [exact H1|]. eapply visit_visited. exact He.
    + intros s2 [H|[H|[a H]]]; try discriminate. injection H as <- <-. rewrite Hmm. apply stays_refl.
Qed.

Lemma told_limit x b : b = true -> told_to_suspend (limit_after x b).
Proof. intros ->. apply told_lor. Qed.
Lemma lim_limit C x b : lim C x -> lim C (limit_after x b).
Proof. intros H. unfold limit_after. destruct b; [apply lim_lor; exact H|exact H]. Qed.
Lemma range_limit x b : 0 <= x < 18446744073709551616 -> 0 <= limit_after x b < 18446744073709551616.
Proof. intros H. unfold limit_after. destruct b; [change suspend_mask with 4611686018427387905; apply lor_range; exact H|exact H]. Qed.

Lemma gam_signal C A g s s' : ctx_ok C -> gam C A g s -> signalled (x_vars C) s s' -> gam C A true s'.
Proof.
  intros HC HG (m & -> & Hb & Hsu & Hsame).
  destruct (ga_rsp _ _ _ _ HG) as (k & Hk & Rk). destruct (gam_get_sp C A g s k HG Hk) as [Hsp _].
  assert (Hsl : forall k0, -64 <= k0 -> ld 8 m (x_sp C + k0) = ld 8 (mm s) (x_sp C + k0)).
  { intros k0 H0. apply ld_ext. intros y Hy. change (Z.of_nat 8) with 8 in Hy. apply Hsame; [rewrite Hsp; lia|destruct HC; lia]. }
  pose proof (ld4_range (mm s) (x_vars C + 20) (ga_mem _ _ _ _ HG)) as RS.
  assert (Hprot : protected (s_suspend m (x_vars C)) = protected (s_suspend (mm s) (x_vars C))).
  { rewrite Hsu. unfold s_suspend. assert (0 <= Z.lor (ld 4 (mm s) (x_vars C + 20)) 1) by (apply Z.lor_nonneg; lia). rewrite !prot_bit by lia. rewrite Z.lor_spec. apply orb_false_r. }
  assert (Hodd : Z.odd (s_suspend m (x_vars C)) = true) by (rewrite Hsu, odd_lor; apply orb_true_r).
  pose proof (ga_prot _ _ _ _ HG) as Hpr. unfold susp in Hpr.
  destruct HG as [ga_regs0 ga_rng0 ga_mem0 ga_slots0 ga_zf0 ga_lt0 ga_prot0 ga_base0 ga_clock0 ga_rbx0 ga_rsp0 ga_r16]. constructor; cbn [mm rg zf lt cbase]; try assumption.
  - intros r. rewrite rget_rset. destruct (reg_eqb r rbx) eqn:E; [apply reg_eqb_eq in E; subst r|].
    + pose proof (ga_regs0 rbx) as Hr. rewrite ga_rbx0 in *. destruct Hr as [Hl _]. split; [apply lim_limit; exact Hl|].
      unfold reg_claim. rewrite Hpr. destruct (aph A); cbn [claim negb].
      * intros _. apply told_limit. reflexivity.
      * intros _. right. exact Hodd.
      * intros _. left. apply told_limit. reflexivity.
      * intros _. left. apply told_limit. reflexivity.
      * exact Logic.I.
    + pose proof (ga_regs0 r) as Hr. eapply val_is_weaker; [|exact Hr]. unfold reg_claim. destruct r; try exact (fun h => h). discriminate.
  - intros r. rewrite rget_rset. destruct (reg_eqb r rbx); [apply range_limit|]; apply ga_rng0.
  - intros k0 v Hin. destruct (ga_slots0 k0 v Hin) as (H1 & H2 & H3). split; [exact H1|]. split; [exact H2|]. rewrite (Hsl k0 H1). eapply val_is_weaker; [|exact H3].
    unfold slot_claim. destruct (aph A); try exact (fun h => h). intros _ _. right. exact Hodd.
  - unfold susp. cbn [mm]. rewrite Hprot. exact Hpr.
  - rewrite <- ga_clock0. apply ld_ext. intros y Hy. change (Z.of_nat 8) with 8 in Hy. apply Hsame; destruct HC; lia.
Qed.
Lemma inv_signal C s s' g : ctx_ok C -> inv C (More s) g -> signalled (x_vars C) s s' -> inv C (More s') true.
Proof.
  intros HC (n & A & HG & He) Hs. exists n, A. split; [eapply gam_signal; eassumption|]. destruct Hs as (m & -> & _). exact He.
Qed.

Lemma inv_kernel C s g r c k m :
  ctx_ok C -> inv C (AtSyscall s) g -> rget rax (rg s) <> SYS_exit_group ->
  0 <= c < 18446744073709551616 -> 0 <= k < 18446744073709551616 -> (forall a, 0 <= m a < 256) ->
  (forall a, x_vars C <= a < x_vars C + 64 \/ x_text C - 88 <= a < x_text C -> m a = mm s a) ->
  inv C (More (sysret s r c k m)) g.
Proof.
  intros HC (_ & A & HG & Hp & Hv) Hne Rc Rk Hm Hsame. destruct Hv as [Hv|Hv]; [contradiction|].
  assert (Hs : s_suspend m (x_vars C) = s_suspend (mm s) (x_vars C)).
  { unfold s_suspend. apply ld_ext. intros y Hy. change (Z.of_nat 4) with 4 in Hy. apply Hsame. lia. }
  eapply visited_inv; [exact Hv|]. pose proof (u64_range r) as Ru.
  destruct HG as [ga_regs0 ga_rng0 ga_mem0 ga_slots0 ga_zf0 ga_lt0 ga_prot0 ga_base0 ga_clock0 ga_rbx0 ga_rsp0 ga_r16]. constructor; cbn [after_sys aph azf alt aslots areg sysret mm rg zf lt cbase]; try assumption; try discriminate.
  - intros y. rewrite !rget_rset. unfold aset. destruct (reg_eqb y rax); [exact Logic.I|]. destruct (reg_eqb y rcx); [exact Logic.I|]. destruct (reg_eqb y r11); [exact Logic.I|].
    eapply val_is_weaker; [|apply ga_regs0]. unfold reg_claim. destruct y; try exact (fun h => h). cbn [aph after_sys]. rewrite Hp. exact (fun h => h).
  - intros y. rewrite !rget_rset. destruct (reg_eqb y rax); [exact Ru|]. destruct (reg_eqb y rcx); [exact Rc|]. destruct (reg_eqb y r11); [exact Rk|]. apply ga_rng0.
  - intros k0 v [].
  - unfold susp in *. cbn [mm sysret]. rewrite Hs. exact ga_prot0.
  - rewrite <- ga_clock0. apply ld_ext. intros y Hy. change (Z.of_nat 8) with 8 in Hy. apply Hsame. lia.
Qed.

Lemma code_back C l s : ctx_ok C -> cbase s = x_base C -> (l < 340)%nat -> goto (length runtime) (x_base C + Z.of_nat l) s = More (set_pc s l).
Proof. intros HC Hb Hl. rewrite (goto_rt (x_base C) (Z.of_nat l) s Hb) by lia. rewrite Nat2Z.id. reflexivity. Qed.

Lemma inv_clock C s g ok sec nsec sg e :
  ctx_ok C -> inv C (Outside (x_clock C) s) g -> clock_returns s (x_vars C) ok sec nsec sg e -> inv C e (g || sg).
Proof.
  intros HC Hi Hc. destruct Hi as [(_ & A & k & j & l & HG & Hp & Hk & Hj & Hsl & H1 & H2 & H3 & Hv)|(Hx & _)].
  2: { exfalso. destruct HC. tauto. }
  destruct Hc as (result & c & d & i & jj & x & f & h & kk & m & -> & _ & Hrs & Hm & _ & _ & Hsu & Hsame).
  destruct (gam_get_sp C A g s k HG Hk) as [Hsp Rk].
  assert (Hsi : rget rsi (rg s) = x_sp C + j) by (pose proof (ga_regs _ _ _ _ HG rsi) as H; rewrite Hj in H; exact H).
  rewrite Hsp, Hsi in Hsame. change (ld 4 m (x_vars C + 20)) with (s_suspend m (x_vars C)) in Hsu. change (ld 4 (mm s) (x_vars C + 20)) with (s_suspend (mm s) (x_vars C)) in Hsu.
  assert (Hld : forall k0, -64 <= k0 -> (k <= k0 /\ k0 + 8 <= j) \/ (k <= k0 /\ j + 16 <= k0) -> ld 8 m (x_sp C + k0) = ld 8 (mm s) (x_sp C + k0)).
  { intros k0 H0 Hk0. apply ld_ext. intros y Hy. change (Z.of_nat 8) with 8 in Hy. apply Hsame; destruct HC; lia. }
  assert (Hnt : slot k (aslots A) <> Top) by (rewrite Hsl; discriminate).
  destruct (slot_val C A g s k HG Hnt) as (_ & _ & Hcode). rewrite Hsl in Hcode. cbn [val_is] in Hcode. destruct Hcode as [Hcode Hlt].
  unfold c_return. cbv zeta. unfold pop. cbv zeta. cbn [mm rg]. rewrite !rget_rset. change (reg_eqb rsp rax) with false. change (reg_eqb rsp rcx) with false. change (reg_eqb rsp rdx) with false. change (reg_eqb rsp rsi) with false. change (reg_eqb rsp rdi) with false. change (reg_eqb rsp r8) with false. change (reg_eqb rsp r9) with false. change (reg_eqb rsp r10) with false. change (reg_eqb rsp r11) with false. cbn match.
  rewrite Hsp. rewrite (Hld k) by lia. rewrite Hcode. rewrite (code_back C l) by (try exact HC; try exact Hlt; exact (ga_base _ _ _ _ HG)).
  rewrite (u64_small (x_sp C + k + 8)) by (destruct HC; lia). replace (x_sp C + k + 8) with (x_sp C + (k + 8)) by lia.
  eapply visited_inv; [exact Hv|].
  pose proof (ld4_range (mm s) (x_vars C + 20) (ga_mem _ _ _ _ HG)) as RS.
  assert (Hprot : protected (s_suspend m (x_vars C)) = protected (s_suspend (mm s) (x_vars C))).
  { rewrite Hsu. destruct sg; [|reflexivity]. unfold s_suspend. assert (0 <= Z.lor (ld 4 (mm s) (x_vars C + 20)) 1) by (apply Z.lor_nonneg; lia). rewrite !prot_bit by lia. rewrite Z.lor_spec. apply orb_false_r. }
  assert (Hodd : Z.odd (s_suspend m (x_vars C)) = Z.odd (s_suspend (mm s) (x_vars C)) || sg).
  { rewrite Hsu. destruct sg; [rewrite odd_lor; reflexivity|rewrite orb_false_r; reflexivity]. }
  assert (Hcl : forall s1, mm s1 = m -> forall v, claim C P1 g s v -> claim C P1 (g || sg) s1 v).
  { intros s1 Hs1 v. cbn [claim]. unfold susp. rewrite Hs1, Hodd. intros H Hg. apply orb_prop in Hg. destruct Hg as [Hg|Hg].
    - destruct (H Hg) as [H'|H']; [left; exact H'|right; rewrite H'; reflexivity].
    - right. rewrite Hg. apply orb_true_r. }
  change (2 ^ 64) with 18446744073709551616 in Hrs.
  repeat match goal with H : Forall _ (_ :: _) |- _ => apply Forall_cons_iff in H as [? H] end.
  pose proof (u64_range result) as Ru.
  destruct HG as [ga_regs0 ga_rng0 ga_mem0 ga_slots0 ga_zf0 ga_lt0 ga_prot0 ga_base0 ga_clock0 ga_rbx0 ga_rsp0 ga_r16]. constructor; cbn [after_clock aph azf alt aslots areg mm rg zf lt cbase set_pc set_rg]; try assumption; try discriminate.
  - intros r. rewrite !rget_rset. destruct r; try exact Logic.I; cbn [reg_eqb reg_n]; cbv [reg_eqb reg_n]; cbn match.
    + rewrite ga_rbx0. pose proof (ga_regs0 rbx) as Hr. rewrite ga_rbx0 in Hr. destruct Hr as [Hr1 Hr2]. split; [exact Hr1|]. unfold reg_claim in *. cbn [aph after_clock]. rewrite Hp in *. eapply Hcl; [reflexivity|exact Hr2].
    + reflexivity.
    + exact (ga_regs0 rbp).
    + exact (ga_regs0 r12).
    + exact (ga_regs0 r13).
    + exact (ga_regs0 r14).
    + exact (ga_regs0 r15).
  - intros r. rewrite !rget_rset. destruct r; cbv [reg_eqb reg_n]; cbn match; try assumption; try apply ga_rng0. change (0 <= x_sp C + (k + 8) < 18446744073709551616); destruct HC; lia.
  - intros k0 v Hin. apply in_outside in Hin as [Hin Ho1]. apply in_outside in Hin as [Hin Ho2]. destruct (ga_slots0 k0 v Hin) as (G1 & G2 & G3). split; [exact G1|]. split; [exact G2|].
    rewrite (Hld k0) by lia. eapply val_is_weaker; [|exact G3]. unfold slot_claim. cbn [aph after_clock]. rewrite Hp. apply Hcl. reflexivity.
  - unfold susp in *. cbn [mm set_pc set_rg]. rewrite Hprot. exact ga_prot0.
  - rewrite <- ga_clock0. apply ld_ext. intros y Hy. change (Z.of_nat 8) with 8 in Hy. apply Hsame; destruct HC; lia.
  - exists (k + 8). split; [reflexivity|lia].
Qed.

Lemma inv_resume C s g e :
  ctx_ok C -> inv C (Outside (x_text C + 16) s) g -> rget rsp (rg s) < x_sp C -> resume_returns s e ->
  (forall s', e = More s' -> forall r, 0 <= rget r (rg s') < 18446744073709551616) -> inv C e g.
Proof.
  intros HC Hi Hlt Hr Hrng. destruct Hi as [(Hx & _)|(_ & A & k & HG & Hp & Hk & Hnx)].
  1: { exfalso. destruct HC. symmetry in Hx. tauto. }
  destruct (gam_get_sp C A g s k HG Hk) as [Hsp Rk]. destruct Hnx as [->|(l & Hsl & H1 & Hv)]; [lia|].
  assert (Hnt : slot k (aslots A) <> Top) by (rewrite Hsl; discriminate).
  destruct (slot_val C A g s k HG Hnt) as (_ & _ & Hcode). rewrite Hsl in Hcode. cbn [val_is] in Hcode. destruct Hcode as [Hcode Hll].
  destruct Hr as (c & d & p & i & j & x & f & h & kk & ll & m & n & He). cbv zeta in He. unfold pop in He. cbv zeta in He. cbn [mm rg rget g_rsp] in He. change (g_rsp (rg s)) with (rget rsp (rg s)) in He. rewrite Hsp, Hcode in He.
  rewrite (code_back C l) in He by (try exact HC; try exact Hll; exact (ga_base _ _ _ _ HG)).
  rewrite (u64_small (x_sp C + k + 8)) in He by (destruct HC; lia). replace (x_sp C + k + 8) with (x_sp C + (k + 8)) in He by lia.
  specialize (Hrng _ He). rewrite He. clear He e.
  eapply visited_inv; [exact Hv|].
  destruct HG as [ga_regs0 ga_rng0 ga_mem0 ga_slots0 ga_zf0 ga_lt0 ga_prot0 ga_base0 ga_clock0 ga_rbx0 ga_rsp0 ga_r16].
  constructor; cbn [after_resume aph azf alt aslots areg mm rg zf lt cbase set_pc set_rg]; try assumption; try discriminate.
  - intros r. rewrite rget_rset. destruct r; try exact Logic.I; cbv [reg_eqb reg_n]; cbn match.
    + pose proof (ga_regs0 rbx) as Hr. unfold reg_claim in *. cbn [aph after_resume]. rewrite Hp in *. exact Hr.
    + reflexivity.
    + exact (ga_regs0 r15).
  - exists (k + 8). split; [reflexivity|lia].
Qed.

Lemma inv_move C e g e' g' :
  ctx_ok C -> inv C e g -> moves (x_sp C) (x_text C) (x_vars C) e g e' g' -> inv C e' g'.
Proof.
  intros HC Hi Hm. destruct Hm.
  - apply inv_step; assumption.
  - eapply inv_signal; eassumption.
  - eapply inv_kernel; eassumption.
  - assert (Hc : v_clock_gettime (mm s) (x_text C) = x_clock C).
    { unfold v_clock_gettime. destruct Hi as [(_ & A & k & j & l & HG & _)|(_ & A & k & HG & _)]; exact (ga_clock _ _ _ _ HG). }
    rewrite Hc in Hi. eapply inv_clock; eassumption.
  - eapply inv_resume; eassumption.
Qed.
Lemma inv_reaches C e g e' g' :
  ctx_ok C -> reaches (x_sp C) (x_text C) (x_vars C) e g e' g' -> inv C e g -> inv C e' g'.
Proof. intros HC Hr. induction Hr; intros Hi; [exact Hi|]. apply IHHr. eapply inv_move; eassumption. Qed.

(** * From an import *)

Definition ctx_of (s : cpu) (sp text vars : Z) : ctx := Ctx sp text vars (v_clock_gettime (mm s) text) (cbase s).
Lemma ctx_of_ok s sp text vars :
  imported s sp text vars -> v_clock_gettime (mm s) text <> text + 16 -> ctx_ok (ctx_of s sp text vars).
Proof.
  intros H Hne. pose proof (ld8_range (mm s) (text - 88) (im_mem _ _ _ _ H)) as Rc. open_imported H.
  constructor; cbn [ctx_of x_sp x_text x_vars x_clock x_base]; try lia. unfold v_clock_gettime in *. tauto.
Qed.
Lemma entry_inv s sp text vars g :
  imported s sp text vars -> v_clock_gettime (mm s) text <> text + 16 -> In (pc s) entries -> protected (s_suspend (mm s) vars) = false ->
  (g = true -> told_to_suspend (rget rbx (rg s))) ->
  inv (ctx_of s sp text vars) (More s) g.
Proof.
  intros H Hne Hin Hpr Hg. eapply (visited_inv _ entry).
  - exists 0%nat. replace (existsb (Nat.eqb (pc s)) entries) with true; [reflexivity|]. symmetry. apply existsb_exists. exists (pc s). split; [exact Hin|apply Nat.eqb_refl].
  - destruct H. constructor; cbn [entry aph azf alt aslots areg ctx_of x_sp x_text x_vars x_clock x_base]; try assumption; try discriminate; try reflexivity.
    + intros r. destruct r; try exact Logic.I; cbn [val_is ctx_of x_sp x_text x_vars x_clock x_base].
      * split; [exact im_limit|]. unfold reg_claim. cbn [entry aph claim]. exact Hg.
      * rewrite im_sp. lia.
      * rewrite im_text. lia.
    + intros k v [].
    + exists 0. split; [reflexivity|lia].
Qed.

(* Every reachable event is good *)
Lemma reachable_good s sp text vars g0 e g :
  imported s sp text vars -> v_clock_gettime (mm s) text <> text + 16 -> In (pc s) entries -> protected (s_suspend (mm s) vars) = false ->
  (g0 = true -> told_to_suspend (rget rbx (rg s))) ->
  reaches sp text vars (More s) g0 e g -> inv (ctx_of s sp text vars) e g.
Proof.
  intros H Hne Hin Hpr Hg Hr. eapply (inv_reaches (ctx_of s sp text vars)); [apply ctx_of_ok; assumption|exact Hr|apply entry_inv; assumption].
Qed.

(* What that says *)
Lemma inv_says C e g : ctx_ok C -> inv C e g ->
  match e with
  | More s => rget r15 (rg s) = x_text C /\ lim C (rget rbx (rg s)) /\ x_sp C - 64 <= rget rsp (rg s) <= x_sp C
  | AtSyscall s => In (rget rax (rg s)) permitted /\ lim C (rget rbx (rg s)) /\ protected (susp C s) = false /\ (g = true -> told_to_suspend (rget rbx (rg s)))
  | Outside a s =>
      rget r15 (rg s) = x_text C /\ lim C (rget rbx (rg s)) /\ x_sp C - 64 <= rget rsp (rg s) <= x_sp C /\
      (a = x_clock C \/ (a = x_text C + 16 /\ protected (susp C s) = false /\ (g = true -> told_to_suspend (rget rbx (rg s)))))
  | Breakpoint _ | Stuck => False
  end.
Proof.
  intros HC Hi.
  assert (Hg : forall A s, gam C A g s -> rget r15 (rg s) = x_text C /\ lim C (rget rbx (rg s)) /\ x_sp C - 64 <= rget rsp (rg s) <= x_sp C /\
                 (aph A = P0 -> protected (susp C s) = false /\ (g = true -> told_to_suspend (rget rbx (rg s))))).
  { intros A s HG. destruct (ga_rsp _ _ _ _ HG) as (k & Hk & Rk). destruct (gam_get_sp C A g s k HG Hk) as [Hsp _].
    destruct HG as [ga_regs0 ga_rng0 ga_mem0 ga_slots0 ga_zf0 ga_lt0 ga_prot0 ga_base0 ga_clock0 ga_rbx0 ga_rsp0 ga_r16].
    pose proof (ga_regs0 r15) as H15. rewrite ga_r16 in H15. pose proof (ga_regs0 rbx) as Hb. rewrite ga_rbx0 in Hb. destruct Hb as [Hb1 Hb2].
    split; [cbn [val_is] in H15; lia|]. split; [exact Hb1|]. split; [lia|]. intros Ep. rewrite Ep in ga_prot0. split; [exact ga_prot0|].
    unfold reg_claim in Hb2. rewrite Ep in Hb2. exact Hb2. }
  destruct e as [s|s|a s|s|]; try exact Hi.
  - destruct Hi as (n & A & HG & _). destruct (Hg A s HG) as (H1 & H2 & H3 & _). auto.
  - destruct Hi as (Hp & A & HG & Ep & _). destruct (Hg A s HG) as (H1 & H2 & H3 & H4). destruct (H4 Ep). auto.
  - destruct Hi as [(-> & A & k & j & l & HG & _)|(-> & A & k & HG & Ep & _)]; destruct (Hg A s HG) as (H1 & H2 & H3 & H4); auto 8.
Qed.
