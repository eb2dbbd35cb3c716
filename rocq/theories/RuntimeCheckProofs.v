(* RuntimeCheckProofs.v: soundness of the checker. *)
From Verif Require Import RuntimeSpec RuntimeSched RuntimeCheck AsmProofs RuntimeTimeProofs.
From Coq Require Import Lia ZArith Znumtheory List Bool.
Import ListNotations.
Local Open Scope Z_scope.

(** * Meaning of symbolic states *)

Record ctx := Ctx { x_sp : Z; x_text : Z; x_vars : Z; x_clock : Z; x_base : Z }.
Record ctx_ok (C : ctx) : Prop := CtxOk {
  co_range : 0 <= x_vars C /\ x_vars C + 512 <= x_sp C /\ x_sp C + 24 <= 140737488355328 /\ 4096 <= x_text C < 140737488355328;
  co_apart : x_text C <= x_vars C \/ x_sp C + 24 <= x_text C - 88;
  co_code : 0 <= x_base C /\ x_base C + 340 <= x_text C - 88;
  co_clock : ~ (x_base C <= x_clock C < x_base C + 340) /\ 0 <= x_clock C < 18446744073709551616 /\ x_clock C <> x_text C + 16;
}.
Definition lim (C : ctx) (v : Z) : Prop := Z.land v (2 ^ 64 - 1 - suspend_mask) = x_vars C + stack_limit_offset.
Definition val_is (C : ctx) (P : Z -> Prop) (v : av) (x : Z) : Prop :=
  match v with
  | Top => True
  | Cst z => x = z
  | Vars k => x = x_vars C + k
  | Sp k => x = x_sp C + k
  | Text k => x = x_text C + k
  | Lim => lim C x
  | LimG => lim C x /\ P x
  | Code l => x = x_base C + Z.of_nat l /\ (l < 340)%nat
  | Clock => x = x_clock C
  end.
Definition susp (C : ctx) (s : cpu) : Z := s_suspend (mm s) (x_vars C).
Definition claim (C : ctx) (p : phase) (g : bool) (s : cpu) (v : Z) : Prop :=
  match p with
  | P0 => g = true -> told_to_suspend v
  | P1 => g = true -> told_to_suspend v \/ Z.odd (susp C s) = true
  | P2 => g = true -> told_to_suspend v \/ Z.odd (rget rax (rg s)) = true
  | P3 => g = true -> told_to_suspend v \/ zf s = Some false
  | P4 => True
  end.
Definition reg_claim C (A : ast) g s (r : reg) : Z -> Prop := match r with rbx => claim C (aph A) g s | _ => fun _ => True end.
Definition slot_claim C (A : ast) g s : Z -> Prop := match aph A with P1 => claim C P1 g s | _ => fun _ => True end.

Record gam (C : ctx) (A : ast) (g : bool) (s : cpu) : Prop := Gam {
  ga_regs : forall r, val_is C (reg_claim C A g s r) (areg A r) (rget r (rg s));
  ga_rng : forall r, 0 <= rget r (rg s) < 18446744073709551616;
  ga_mem : forall a, 0 <= mm s a < 256;
  ga_slots : forall k v, In (k, v) (aslots A) -> -64 <= k /\ k + 8 <= 24 /\ val_is C (slot_claim C A g s) v (ld 8 (mm s) (x_sp C + k));
  ga_zf : azf A = true -> exists b, zf s = Some b;
  ga_lt : alt A = true -> exists b, lt s = Some b;
  ga_prot : protected (susp C s) = match aph A with P1 => true | _ => false end;
  ga_base : cbase s = x_base C;
  ga_clock : ld 8 (mm s) (x_text C - 88) = x_clock C;
  ga_rbx : areg A rbx = LimG;
  ga_rsp : exists k, areg A rsp = Sp k /\ -64 <= k <= 0;
  ga_r15 : areg A r15 = Text 0;
}.

(** * Registers *)

Lemma reg_eqb_eq a b : reg_eqb a b = true <-> a = b.
Proof. destruct a, b; cbv; split; intros; congruence. Qed.
Lemma rget_rset r v g x : rget x (rset r v g) = if reg_eqb x r then v else rget x g.
Proof. destruct g, r, x; reflexivity. Qed.
Lemma val_is_weaker C (P Q : Z -> Prop) v x : (P x -> Q x) -> val_is C P v x -> val_is C Q v x.
Proof. intros H. destruct v; cbn; try exact (fun h => h). intros [H1 H2]. split; [exact H1|exact (H H2)]. Qed.
Lemma claim_ext C p g s s' v : plain p = true -> susp C s' = susp C s -> claim C p g s v -> claim C p g s' v.
Proof. intros Hp He. destruct p; cbn [claim plain] in Hp |- *; try discriminate; try rewrite He; exact (fun h => h). Qed.

Lemma gam_reg C A g s r v x :
  gam C A g s -> plain (aph A) = true -> special r = false -> 0 <= x < 18446744073709551616 -> val_is C (fun _ => True) v x ->
  gam C (put_reg r v A) g (set_rg s (rset r x (rg s))).
Proof.
  intros [] Hp Hs Hx Hv. constructor; cbn [aph azf alt aslots put_reg areg set_rg mm rg zf lt cbase]; try assumption.
  - intros y. rewrite rget_rset. unfold aset. destruct (reg_eqb y r) eqn:E.
    + apply reg_eqb_eq in E. subst y. eapply val_is_weaker; [|exact Hv]. intros _. destruct r; try exact Logic.I; discriminate.
    + eapply val_is_weaker; [|apply ga_regs0]. unfold reg_claim. destruct y; try (exact (fun h => h)). apply claim_ext; [exact Hp|reflexivity].
  - intros y. rewrite rget_rset. destruct (reg_eqb y r); [exact Hx|apply ga_rng0].
  - unfold aset. destruct (reg_eqb rbx r) eqn:E; [apply reg_eqb_eq in E; subst r; discriminate|exact ga_rbx0].
  - unfold aset. destruct (reg_eqb rsp r) eqn:E; [apply reg_eqb_eq in E; subst r; discriminate|exact ga_rsp0].
  - unfold aset. destruct (reg_eqb r15 r) eqn:E; [apply reg_eqb_eq in E; subst r; discriminate|exact ga_r16].
Qed.
Lemma gam_flags C A g s z l z' l' :
  gam C A g s -> plain (aph A) = true -> (z = true -> exists b, z' = Some b) -> (l = true -> exists b, l' = Some b) ->
  gam C (put_flags z l A) g (set_flags s z' l').
Proof.
  intros [] Hp Hz Hl. constructor; cbn [aph azf alt aslots put_flags areg set_flags mm rg zf lt cbase]; try assumption.
  intros y. eapply val_is_weaker; [|apply ga_regs0]. unfold reg_claim. destruct y; try (exact (fun h => h)). apply claim_ext; [exact Hp|reflexivity].
Qed.
Lemma gam_pc C A g s p : gam C A g s -> gam C A g (set_pc s p).
Proof. intros []. constructor; assumption. Qed.

(** * Operands *)

Lemma val8 o s : (forall a, 0 <= mm s a < 256) -> 0 <= val 8 o s < 18446744073709551616.
Proof.
  intros H. destruct o; cbn [val].
  - apply Z.mod_pos_bound. reflexivity.
  - apply Z.mod_pos_bound. reflexivity.
  - apply ld8_range. exact H.
Qed.
Lemma val4 o s : (forall a, 0 <= mm s a < 256) -> 0 <= val 4 o s < 4294967296.
Proof.
  intros H. destruct o; cbn [val].
  - apply Z.mod_pos_bound. reflexivity.
  - apply Z.mod_pos_bound. reflexivity.
  - apply ld4_range. exact H.
Qed.
Lemma val_range w o s : w48 w = true -> (forall a, 0 <= mm s a < 256) -> 0 <= val w o s < 18446744073709551616 /\ 0 <= val w o s < card w.
Proof.
  intros Hw H. unfold w48 in Hw. apply orb_prop in Hw. destruct Hw as [Hw|Hw]; apply Z.eqb_eq in Hw; subst w.
  - pose proof (val4 o s H). change (card 4) with 4294967296. lia.
  - pose proof (val8 o s H). change (card 8) with 18446744073709551616. lia.
Qed.
Lemma w48_cases w : w48 w = true -> w = 4 \/ w = 8.
Proof. unfold w48. intros H. apply orb_prop in H. destruct H as [H|H]; apply Z.eqb_eq in H; auto. Qed.

Lemma aval_ok C A g s w o :
  ctx_ok C -> gam C A g s -> w48 w = true -> val_is C (fun _ => True) (aval w o A) (val w o s).
Proof.
  intros HC HG Hw. destruct HG. apply w48_cases in Hw. destruct o as [r|z|b [x|] off]; cbn [aval val].
  - pose proof (ga_regs0 r) as Hr. pose proof (ga_rng0 r) as Rr. destruct Hw as [->| ->].
    + change (4 =? 8) with false. cbn match. destruct (areg A r); try exact Logic.I. cbn in Hr |- *. rewrite Hr. reflexivity.
    + change (8 =? 8) with true. cbn match. rewrite card8_small by exact Rr. destruct (areg A r); cbn in Hr |- *; try exact Hr. exact (proj1 Hr).
  - reflexivity.
  - destruct (w =? 8); exact Logic.I.
  - destruct (w =? 8) eqn:E; [|exact Logic.I]. apply Z.eqb_eq in E. subst w.
    pose proof (ga_regs0 b) as Hr. destruct (areg A b); try exact Logic.I. destruct (k + off =? -88) eqn:E; [|exact Logic.I]. apply Z.eqb_eq in E.
    cbn in Hr |- *. unfold ea. rewrite Hr. destruct HC. rewrite u64_small by lia. replace (x_text C + k + 0 + off) with (x_text C - 88) by lia. exact ga_clock0.
Qed.

(** * Stores *)

Definition stays (C : ctx) (m m' : Z -> Z) : Prop :=
  forall x, ~ (x_vars C <= x < x_vars C + 24) -> ~ (x_sp C - 64 <= x < x_sp C + 24) -> m' x = m x.
Lemma stays_refl C m : stays C m m. Proof. intros x _ _. reflexivity. Qed.

Lemma in_outside a b l k v : In (k, v) (outside a b l) <-> In (k, v) l /\ (k + 8 <= a \/ b <= k).
Proof.
  unfold outside. rewrite filter_In. cbn [fst]. rewrite orb_true_iff, !Z.leb_le. tauto.
Qed.
Lemma slot_in k l : slot k l = Top \/ In (k, slot k l) l.
Proof.
  unfold slot. destruct (find _ l) as [[k' v]|] eqn:E; [|left; reflexivity]. right. apply find_some in E. destruct E as [Hin Hk]. cbn in Hk. apply Z.eqb_eq in Hk. subst k'. exact Hin.
Qed.
Lemma slot_val C A g s k : gam C A g s -> slot k (aslots A) <> Top ->
  -64 <= k /\ k + 8 <= 24 /\ val_is C (slot_claim C A g s) (slot k (aslots A)) (ld 8 (mm s) (x_sp C + k)).
Proof. intros HG Hn. destruct (slot_in k (aslots A)) as [H|H]; [contradiction|]. exact (ga_slots _ _ _ _ HG _ _ H). Qed.

Lemma wnat w : w48 w = true -> Z.of_nat (Z.to_nat w) = w.
Proof. intros H. apply w48_cases in H. destruct H; subst; reflexivity. Qed.

(* A store to the stack *)
Lemma gam_sto_sp C A g s w k v x :
  ctx_ok C -> gam C A g s -> plain (aph A) = true -> w48 w = true -> -64 <= k -> k + w <= 24 -> 0 <= x < card w ->
  (w = 8 -> val_is C (slot_claim C A g s) v x) ->
  gam C (put_slots (if w =? 8 then (k, v) :: outside k (k + w) (aslots A) else outside k (k + w) (aslots A)) A) g
        (set_mm s (sto (Z.to_nat w) (mm s) (x_sp C + k) x)) /\
  stays C (mm s) (sto (Z.to_nat w) (mm s) (x_sp C + k) x).
Proof.
  intros HC HG Hp Hw Hk1 Hk2 Hx Hv. pose proof (wnat w Hw) as Hwn.
  assert (Hsame : forall y, ~ (x_sp C + k <= y < x_sp C + k + w) -> sto (Z.to_nat w) (mm s) (x_sp C + k) x y = mm s y).
  { intros y Hy. apply sto_other. rewrite Hwn. lia. }
  assert (Hs : s_suspend (sto (Z.to_nat w) (mm s) (x_sp C + k) x) (x_vars C) = s_suspend (mm s) (x_vars C)).
  { unfold s_suspend. apply ld_ext. intros y Hy. apply Hsame. destruct HC. lia. }
  split; [|intros y _ Hy; apply Hsame; lia].
  destruct HG. constructor; cbn [aph azf alt aslots put_slots areg set_mm mm rg zf lt cbase]; try assumption.
  - intros y. eapply val_is_weaker; [|apply ga_regs0]. unfold reg_claim. destruct y; try (exact (fun h => h)). apply claim_ext; [exact Hp|exact Hs].
  - intros a. apply sto_range. exact ga_mem0.
  - intros k' v' Hin.
    assert (Hold : forall k0 v0, In (k0, v0) (outside k (k + w) (aslots A)) -> -64 <= k0 /\ k0 + 8 <= 24 /\ val_is C (slot_claim C (put_slots (if w =? 8 then (k, v) :: outside k (k + w) (aslots A) else outside k (k + w) (aslots A)) A) g (set_mm s (sto (Z.to_nat w) (mm s) (x_sp C + k) x))) v0 (ld 8 (sto (Z.to_nat w) (mm s) (x_sp C + k) x) (x_sp C + k0))).
    { intros k0 v0 Hi. apply in_outside in Hi. destruct Hi as [Hi Ho]. destruct (ga_slots0 k0 v0 Hi) as (H1 & H2 & H3). split; [exact H1|]. split; [exact H2|].
      rewrite (ld_ext 8 (mm s)). 2: { intros y Hy. apply Hsame. change (Z.of_nat 8) with 8 in Hy. lia. }
      eapply val_is_weaker; [|exact H3]. unfold slot_claim. cbn [aph put_slots]. destruct (aph A); try exact (fun h => h). cbn [claim]. unfold susp. cbn [mm set_mm]. rewrite Hs. exact (fun h => h). }
    destruct (w =? 8) eqn:E8; [|exact (Hold k' v' Hin)].
    destruct Hin as [Heq|Hin]; [|exact (Hold k' v' Hin)]. injection Heq as <- <-.
    apply Z.eqb_eq in E8. subst w. split; [exact Hk1|]. split; [exact Hk2|]. change (Z.to_nat 8) with 8%nat. rewrite ld_sto_same8 by exact Hx.
    eapply val_is_weaker; [|exact (Hv eq_refl)]. unfold slot_claim. cbn [aph put_slots]. destruct (aph A); try exact (fun h => h). cbn [claim]. unfold susp. cbn [mm set_mm]. change (Z.to_nat 8) with 8%nat in Hs. rewrite Hs. exact (fun h => h).
  - unfold susp. cbn [mm set_mm]. rewrite Hs. exact ga_prot0.
  - rewrite (ld_ext 8 (mm s)); [exact ga_clock0|]. intros y Hy. change (Z.of_nat 8) with 8 in Hy. apply Hsame. destruct HC. lia.
Qed.
(* ... to the variables *)
Lemma gam_sto_vars C A g s w k x :
  ctx_ok C -> gam C A g s -> plain (aph A) = true -> w48 w = true -> 0 <= k -> k + w <= 20 ->
  gam C A g (set_mm s (sto (Z.to_nat w) (mm s) (x_vars C + k) x)) /\
  stays C (mm s) (sto (Z.to_nat w) (mm s) (x_vars C + k) x).
Proof.
  intros HC HG Hp Hw Hk1 Hk2. pose proof (wnat w Hw) as Hwn.
  assert (Hsame : forall y, ~ (x_vars C + k <= y < x_vars C + k + w) -> sto (Z.to_nat w) (mm s) (x_vars C + k) x y = mm s y).
  { intros y Hy. apply sto_other. rewrite Hwn. lia. }
  assert (Hs : s_suspend (sto (Z.to_nat w) (mm s) (x_vars C + k) x) (x_vars C) = s_suspend (mm s) (x_vars C)).
  { unfold s_suspend. apply ld_ext. intros y Hy. change (Z.of_nat 4) with 4 in Hy. apply Hsame. lia. }
  split; [|intros y Hy _; apply Hsame; lia].
  destruct HG. constructor; cbn [aph azf alt aslots areg set_mm mm rg zf lt cbase]; try assumption.
  - intros y. eapply val_is_weaker; [|apply ga_regs0]. unfold reg_claim. destruct y; try (exact (fun h => h)). apply claim_ext; [exact Hp|exact Hs].
  - intros a. apply sto_range. exact ga_mem0.
  - intros k0 v0 Hi. destruct (ga_slots0 k0 v0 Hi) as (H1 & H2 & H3). split; [exact H1|]. split; [exact H2|].
    rewrite (ld_ext 8 (mm s)). 2: { intros y Hy. apply Hsame. change (Z.of_nat 8) with 8 in Hy. destruct HC. lia. }
    eapply val_is_weaker; [|exact H3]. unfold slot_claim. destruct (aph A); try exact (fun h => h). cbn [claim]. unfold susp. cbn [mm set_mm]. rewrite Hs. exact (fun h => h).
  - unfold susp. cbn [mm set_mm]. rewrite Hs. exact ga_prot0.
  - rewrite (ld_ext 8 (mm s)); [exact ga_clock0|]. intros y Hy. change (Z.of_nat 8) with 8 in Hy. apply Hsame. destruct HC. lia.
Qed.
Lemma ea_ok C A g s b off : gam C A g s -> 
  match areg A b with
  | Sp k => ea b None off s = u64 (x_sp C + (k + off))
  | Vars k => ea b None off s = u64 (x_vars C + (k + off))
  | Text k => ea b None off s = u64 (x_text C + (k + off))
  | _ => True
  end.
Proof.
  intros HG. pose proof (ga_regs _ _ _ _ HG b) as H. unfold ea. destruct (areg A b); try exact Logic.I; cbn in H; rewrite H; f_equal; lia.
Qed.
Lemma gam_store C A A' g s w b off v x :
  ctx_ok C -> gam C A g s -> plain (aph A) = true -> w48 w = true -> astore w b off v A = Some A' -> 0 <= x < card w ->
  (w = 8 -> val_is C (slot_claim C A g s) v x) ->
  gam C A' g (set_mm s (sto (Z.to_nat w) (mm s) (ea b None off s) x)) /\ stays C (mm s) (sto (Z.to_nat w) (mm s) (ea b None off s) x) /\
  aph A' = aph A.
Proof.
  intros HC HG Hp Hw Ha Hx Hv. pose proof (ea_ok C A g s b off HG) as He. unfold astore in Ha.
  destruct (areg A b); try discriminate.
  - destruct (_ && _) eqn:E; [|discriminate]. apply andb_prop in E. destruct E as [E1 E2]. apply Z.leb_le in E1. apply Z.leb_le in E2. injection Ha as <-.
    rewrite He. rewrite u64_small by (destruct HC; apply w48_cases in Hw; lia).
    destruct (gam_sto_vars C A g s w (k + off) x HC HG Hp Hw E1 E2). auto.
  - destruct (_ && _) eqn:E; [|discriminate]. apply andb_prop in E. destruct E as [E1 E2]. apply Z.leb_le in E1. apply Z.leb_le in E2. injection Ha as <-.
    rewrite He. rewrite u64_small by (destruct HC; apply w48_cases in Hw; lia).
    destruct (gam_sto_sp C A g s w (k + off) v x HC HG Hp Hw E1 E2 Hx Hv) as [H1 H2].
    split; [|split; [exact H2|reflexivity]]. replace (k + off + w) with (k + off + w) in H1 by lia. exact H1.
Qed.

(** * Instructions *)

Definition out_ok (C : ctx) (g : bool) (s : cpu) (o : aout) (e : event) : Prop :=
  match o with
  | Nexts l => exists s' A', e = More s' /\ In (pc s', A') l /\ gam C A' g s' /\ stays C (mm s) (mm s')
  | Sysc A _ => exists s', e = AtSyscall s' /\ pc s' = S (pc s) /\ gam C A g s' /\ mm s' = mm s
  | Leave ck A _ => exists s', e = Outside (if ck then x_clock C else x_text C + 16) s' /\ gam C A g s' /\ mm s' = mm s
  end.
Lemma next_ok C A g s s' p :
  gam C A g s' -> stays C (mm s) (mm s') -> pc s' = p -> out_ok C g s (Nexts [(S p, A)]) (next s').
Proof.
  intros H Hm Hp. exists (set_pc s' (S (pc s'))), A. split; [reflexivity|]. split; [left; cbn; rewrite Hp; reflexivity|]. split; [apply gam_pc; exact H|exact Hm].
Qed.
Lemma some_flag (b : bool) (x : bool) : b = true -> exists y, Some x = Some y. Proof. intros _. eexists. reflexivity. Qed.

Lemma put_small_range w x v : size_ok w = true -> 0 <= x < 18446744073709551616 -> 0 <= v < card w -> 0 <= x - x mod card w + v < 18446744073709551616.
Proof.
  intros Hw Hx Hv. assert (Hd : exists q, 18446744073709551616 = q * card w /\ 0 < card w).
  { unfold size_ok in Hw. apply orb_prop in Hw. destruct Hw as [Hw|Hw]; [apply orb_prop in Hw; destruct Hw as [Hw|Hw]; [apply orb_prop in Hw; destruct Hw as [Hw|Hw]|]|]; apply Z.eqb_eq in Hw; subst w.
    - exists 72057594037927936. split; reflexivity.
    - exists 281474976710656. split; reflexivity.
    - exists 4294967296. split; reflexivity.
    - exists 1. split; reflexivity. }
  destruct Hd as (q & Hq & Hc). pose proof (Z.div_mod x (card w) ltac:(lia)) as Hdm. pose proof (Z.mod_pos_bound x (card w) Hc) as Hm.
  assert (0 <= x / card w) by (apply Z.div_pos; lia).
  assert (x / card w < q) by (apply Z.div_lt_upper_bound; lia).
  assert (card w * (x / card w) <= card w * (q - 1)) by (apply Z.mul_le_mono_nonneg_l; lia). lia.
Qed.
Lemma val_any w o s : size_ok w = true -> (forall a, 0 <= mm s a < 256) -> 0 <= val w o s < card w.
Proof.
  intros Hw H. assert (Hc : 0 < card w /\ card w = 2 ^ (8 * Z.of_nat (Z.to_nat w))).
  { unfold size_ok in Hw. apply orb_prop in Hw. destruct Hw as [Hw|Hw]; [apply orb_prop in Hw; destruct Hw as [Hw|Hw]; [apply orb_prop in Hw; destruct Hw as [Hw|Hw]|]|]; apply Z.eqb_eq in Hw; subst w; split; reflexivity. }
  destruct Hc as [Hc He]. destruct o; cbn [val]; try (apply Z.mod_pos_bound; exact Hc). rewrite He. apply ld_range. exact H.
Qed.
Lemma size_wide w : size_ok w = true -> wide w = w48 w.
Proof.
  unfold size_ok, w48. intros Hw. apply orb_prop in Hw. destruct Hw as [Hw|Hw]; [apply orb_prop in Hw; destruct Hw as [Hw|Hw]; [apply orb_prop in Hw; destruct Hw as [Hw|Hw]|]|]; apply Z.eqb_eq in Hw; subst w; reflexivity.
Qed.
Lemma w48_size w : w48 w = true -> size_ok w = true.
Proof. intros H. apply w48_cases in H. destruct H; subst; reflexivity. Qed.
Lemma w48_wide w : w48 w = true -> wide w = true.
Proof. intros H. apply w48_cases in H. destruct H; subst; reflexivity. Qed.
Lemma card_le w : w48 w = true -> card w <= 18446744073709551616.
Proof. intros H. apply w48_cases in H. destruct H; subst; unfold card; cbn; lia. Qed.

Lemma t_mov_reg C A g s w src r :
  ctx_ok C -> gam C A g s -> plain (aph A) = true -> size_ok w = true -> special r = false ->
  out_ok C g s (Nexts [(S (pc s), put_reg r (if w48 w then aval w src A else Top) A)]) (exec (length runtime) (Mov w src (R r)) s).
Proof.
  intros HC HG Hp Hw Hs. cbn [exec put]. apply next_ok; [|apply stays_refl|reflexivity].
  pose proof (val_any w src s Hw (ga_mem _ _ _ _ HG)) as Hr. rewrite (size_wide w Hw).
  destruct (w48 w) eqn:E.
  - apply gam_reg; try assumption; [pose proof (card_le w E); lia|apply (aval_ok C A g); assumption].
  - apply gam_reg; try assumption; [apply put_small_range; [exact Hw|apply (ga_rng _ _ _ _ HG)|exact Hr]|exact Logic.I].
Qed.
Lemma val_is_any C P Q v x : v <> LimG -> val_is C P v x -> val_is C Q v x.
Proof. intros Hn. destruct v; try exact (fun h => h). contradiction. Qed.
Lemma aval_not_limg w o A : aval w o A <> LimG.
Proof.
  destruct o as [r|z|b [x|] off]; cbn [aval]; try discriminate; destruct (w =? 8); try discriminate.
  - destruct (areg A r); discriminate.
  - destruct (areg A r); discriminate.
  - destruct (areg A b); try discriminate. destruct (_ =? _); discriminate.
Qed.
Lemma t_mov_mem C A A' g s w src b off :
  ctx_ok C -> gam C A g s -> plain (aph A) = true -> w48 w = true -> astore w b off (aval w src A) A = Some A' ->
  out_ok C g s (Nexts [(S (pc s), A')]) (exec (length runtime) (Mov w src (M b None off)) s).
Proof.
  intros HC HG Hp Hw Ha. cbn [exec put]. destruct (val_range w src s Hw (ga_mem _ _ _ _ HG)) as [_ Hr].
  destruct (gam_store C A A' g s w b off _ (val w src s) HC HG Hp Hw Ha Hr) as (H1 & H2 & H3).
  { intros _. eapply val_is_any; [apply aval_not_limg|apply (aval_ok C A g); assumption]. }
  apply next_ok; [exact H1|exact H2|reflexivity].
Qed.

(* Results of arithmetic *)
Lemma alu_range o w d v : w48 w = true -> 0 <= d < card w -> 0 <= v < card w -> 0 <= alu_val o w d v < card w.
Proof.
  intros Hw Hd Hv. assert (Hc : exists n, 0 <= n /\ card w = 2 ^ n) by (apply w48_cases in Hw; destruct Hw; subst; [exists 32|exists 64]; split; try reflexivity; lia).
  destruct Hc as (n & Hn & Hc). destruct o; cbn [alu_val].
  - apply Z.mod_pos_bound. rewrite Hc. apply Z.pow_pos_nonneg; lia.
  - apply Z.mod_pos_bound. rewrite Hc. apply Z.pow_pos_nonneg; lia.
  - split; [apply Z.land_nonneg; lia|]. pose proof (land_le_r d v ltac:(lia) ltac:(lia)). lia.
  - rewrite Hc in *. apply lor_range_pow; assumption.
  - rewrite Hc in *. assert (H0 : 0 <= Z.lxor d v) by (apply Z.lxor_nonneg; lia). split; [exact H0|].
    destruct (Z.eq_dec (Z.lxor d v) 0) as [->|Hz]; [apply Z.pow_pos_nonneg; lia|].
    apply Z.log2_lt_pow2; [lia|]. pose proof (Z.log2_lxor d v ltac:(lia) ltac:(lia)) as Hl.
    assert (Hb : forall x, 0 <= x < 2 ^ n -> 0 < n -> Z.log2 x < n).
    { intros x Hx Hn0. destruct (Z.eq_dec x 0) as [->|]; [rewrite Z.log2_nonpos by lia; lia|]. apply Z.log2_lt_pow2; lia. }
    assert (0 < n). { destruct (Z.eq_dec n 0) as [->|]; [|lia]. exfalso. change (2 ^ 0) with 1 in *. replace d with 0 in * by lia. replace v with 0 in * by lia. apply Hz. reflexivity. }
    pose proof (Hb d Hd H). pose proof (Hb v Hv H). lia.
Qed.
Lemma aalu_ok C A g s o w src r :
  ctx_ok C -> gam C A g s -> w48 w = true ->
  val_is C (fun _ => True) (aalu o w src (R r) A) (alu_val o w (val w (R r) s) (val w src s)).
Proof.
  intros HC HG Hw. destruct HG. destruct o, src; cbn [aalu]; try exact Logic.I.
  - (* Sub *) pose proof (ga_regs0 r) as Hr. pose proof (ga_rng0 r) as Hg. destruct (areg A r); try exact Logic.I.
    destruct (_ && _) eqn:E; [|exact Logic.I]. apply andb_prop in E as [E E5]. apply andb_prop in E as [E E4]. apply andb_prop in E as [E E3]. apply andb_prop in E as [E1 E2].
    apply Z.eqb_eq in E1. subst w. apply Z.leb_le in E2. apply Z.leb_le in E3. apply Z.leb_le in E4. apply Z.ltb_lt in E5.
    cbn [val_is] in Hr |- *. cbn [alu_val val]. rewrite Hr in *. rewrite (card8_small (x_vars C + k)) by lia. rewrite (card8_small z) by lia.
    rewrite card8_small; [lia|]. destruct HC. lia.
  - (* And *) pose proof (ga_regs0 r0) as Ha. pose proof (ga_regs0 r) as Hr. pose proof (ga_rng0 r0) as Ga. pose proof (ga_rng0 r) as Gr.
    destruct (areg A r0); try exact Logic.I. destruct (areg A r); try exact Logic.I. destruct (_ && _) eqn:E; [|exact Logic.I]. apply andb_prop in E as [E1 E2].
    apply Z.eqb_eq in E1. apply Z.eqb_eq in E2. subst w z. cbn [val_is] in Ha, Hr |- *. cbn [alu_val val]. rewrite Ha in *. rewrite (card8_small (rget r (rg s))) by exact Gr.
    rewrite card8_small by exact Ga. exact Hr.
  - (* Xor *) destruct (reg_eqb r0 r) eqn:E; [|exact Logic.I]. apply reg_eqb_eq in E. subst r0. cbn [val_is alu_val]. apply Z.lxor_nilpotent.
Qed.
Lemma put_wide w r v s : w48 w = true -> put w (R r) v s = set_rg s (rset r v (rg s)).
Proof. intros H. cbn [put]. rewrite (w48_wide w H). reflexivity. Qed.

Lemma t_alu_reg C A g s o w src r :
  ctx_ok C -> gam C A g s -> plain (aph A) = true -> w48 w = true -> special r = false ->
  out_ok C g s (Nexts [(S (pc s), put_flags true true (put_reg r (aalu o w src (R r) A) A))]) (exec (length runtime) (Alu o w src (R r)) s).
Proof.
  intros HC HG Hp Hw Hs. cbn [exec]. cbv zeta. rewrite (put_wide w r _ s Hw).
  destruct (val_range w (R r) s Hw (ga_mem _ _ _ _ HG)) as [_ Hd]. destruct (val_range w src s Hw (ga_mem _ _ _ _ HG)) as [_ Hv].
  pose proof (alu_range o w _ _ Hw Hd Hv) as Hr. pose proof (card_le w Hw).
  apply next_ok; [|apply stays_refl|reflexivity]. apply gam_flags; [|exact Hp|apply some_flag|apply some_flag].
  apply gam_reg; try assumption; [lia|]. apply (aalu_ok C A g); assumption.
Qed.

(* The stack pointer *)
Lemma gam_rsp C A g s d :
  gam C A g s -> plain (aph A) = true -> -64 <= d <= 0 -> ctx_ok C ->
  gam C (put_reg rsp (Sp d) A) g (set_rg s (rset rsp (x_sp C + d) (rg s))).
Proof.
  intros [] Hp Hd HC. constructor; cbn [aph azf alt aslots put_reg areg set_rg mm rg zf lt cbase]; try assumption.
  - intros y. rewrite rget_rset. unfold aset. destruct (reg_eqb y rsp) eqn:E; [reflexivity|].
    eapply val_is_weaker; [|apply ga_regs0]. unfold reg_claim. destruct y; try (exact (fun h => h)). apply claim_ext; [exact Hp|reflexivity].
  - intros y. rewrite rget_rset. destruct (reg_eqb y rsp); [destruct HC; lia|apply ga_rng0].
  - unfold aset. cbn. exists d. split; [reflexivity|exact Hd].
Qed.
Lemma told_lor v : told_to_suspend (Z.lor v suspend_mask).
Proof.
  unfold told_to_suspend. rewrite Z.land_lor_distr_l, Z.land_diag.
  apply Z.bits_inj'. intros n Hn. rewrite Z.lor_spec, Z.land_spec. destruct (Z.testbit v n), (Z.testbit suspend_mask n); reflexivity.
Qed.
Lemma lim_lor C v : lim C v -> lim C (Z.lor v suspend_mask).
Proof. unfold lim. intros H. rewrite Z.land_lor_distr_l, H. change (Z.land suspend_mask (2 ^ 64 - 1 - suspend_mask)) with 0. apply Z.lor_0_r. Qed.

Lemma t_alu_special_ok C A g s o w src r out :
  ctx_ok C -> gam C A g s -> plain (aph A) = true -> w48 w = true -> t_alu_special (pc s) o w src r A = Some out ->
  out_ok C g s out (exec (length runtime) (Alu o w src (R r)) s).
Proof.
  intros HC HG Hp Hw Ht. unfold t_alu_special in Ht. destruct r; try discriminate.
  - (* rbx *) destruct src as [[]| |]; try discriminate. destruct o; try discriminate. destruct (aph A) eqn:Ep; try discriminate.
    destruct (areg A rax) eqn:Ea; try discriminate. destruct (_ && _) eqn:E; [|discriminate]. apply andb_prop in E as [E1 E2]. apply Z.eqb_eq in E1. apply Z.eqb_eq in E2. subst z w. injection Ht as <-.
    pose proof (ga_regs _ _ _ _ HG rax) as Hax. rewrite Ea in Hax. cbn [val_is] in Hax. pose proof (ga_regs _ _ _ _ HG rbx) as Hbx. rewrite (ga_rbx _ _ _ _ HG) in Hbx. destruct Hbx as [Hbx _].
    pose proof (ga_rng _ _ _ _ HG rbx) as Rb. pose proof (ga_rng _ _ _ _ HG rax) as Ra.
    cbn [exec]. cbv zeta. rewrite (put_wide 8 rbx _ s Hw). cbn [alu_val val]. rewrite (card8_small (rget rax (rg s))) by exact Ra. rewrite (card8_small (rget rbx (rg s))) by exact Rb. rewrite Hax.
    apply next_ok; [|apply stays_refl|reflexivity].
    destruct HG. constructor; cbn [aph azf alt aslots put_flags put_phase areg set_flags set_rg mm rg zf lt cbase]; try assumption; try (apply some_flag).
    + intros y. rewrite rget_rset. destruct (reg_eqb y rbx) eqn:E; [apply reg_eqb_eq in E; subst y|].
      * rewrite ga_rbx0. split; [apply lim_lor; exact Hbx|]. intros _. apply told_lor.
      * eapply val_is_weaker; [|apply ga_regs0]. unfold reg_claim. destruct y; try (exact (fun h => h)). discriminate.
    + intros y. rewrite rget_rset. destruct (reg_eqb y rbx); [|apply ga_rng0]. change suspend_mask with 4611686018427387905. apply lor_range. exact Rb.
    + intros k v Hin. destruct (ga_slots0 k v Hin) as (H1 & H2 & H3). split; [exact H1|]. split; [exact H2|]. eapply val_is_weaker; [|exact H3]. intros _. exact Logic.I.
    + etransitivity; [exact ga_prot0|rewrite Ep; reflexivity].
  - (* rsp *) destruct src as [|z|]; try discriminate. destruct (areg A rsp) eqn:Es; try discriminate. cbv zeta in Ht.
    destruct (match o with Asm.Add => Some (k + z) | Asm.Sub => Some (k - z) | _ => None end) as [d|] eqn:Ed; [|discriminate].
    destruct (_ && _) eqn:E; [|discriminate]. apply andb_prop in E as [E E5]. apply andb_prop in E as [E E4]. apply andb_prop in E as [E E3]. apply andb_prop in E as [E1 E2].
    apply Z.eqb_eq in E1. subst w. apply Z.leb_le in E2. apply Z.leb_le in E3. apply Z.leb_le in E4. apply Z.leb_le in E5. injection Ht as <-.
    pose proof (ga_regs _ _ _ _ HG rsp) as Hs. rewrite Es in Hs. cbn [val_is] in Hs. pose proof (ga_rsp _ _ _ _ HG) as (k' & Hk' & Rk). rewrite Es in Hk'. injection Hk' as <-.
    assert (Hv : alu_val o 8 (val 8 (R rsp) s) (val 8 (I z) s) = x_sp C + d).
    { cbn [val]. rewrite Hs. destruct HC. rewrite (card8_small z) by lia. rewrite (card8_small (x_sp C + k)) by lia.
      destruct o; try discriminate; injection Ed as <-; cbn [alu_val]; rewrite card8_small by lia; lia. }
    cbn [exec]. cbv zeta. rewrite (put_wide 8 rsp _ s Hw). rewrite Hv.
    apply next_ok; [|apply stays_refl|reflexivity]. apply gam_flags; [|exact Hp|apply some_flag|apply some_flag]. apply gam_rsp; try assumption. lia.
Qed.

(* Read-modify-write of memory *)
Lemma odd_lor x y : Z.odd (Z.lor x y) = Z.odd x || Z.odd y.
Proof. rewrite <- !Z.bit0_odd. apply Z.lor_spec. Qed.
Lemma prot_bit x : 0 <= x -> protected x = Z.testbit x 1.
Proof.
  intros H. unfold protected. rewrite <- Z.bit0_odd. change 2 with (2 ^ 1) at 1. rewrite <- Z.shiftr_div_pow2 by lia. rewrite Z.shiftr_spec by lia. reflexivity.
Qed.
Lemma in_weak k v l : In (k, v) (weak_slots l) -> exists v', In (k, v') l /\ v = weak v'.
Proof. unfold weak_slots. rewrite in_map_iff. intros ([k' v'] & He & Hin). cbn in He. injection He as <- <-. exists v'. split; [exact Hin|reflexivity]. Qed.
Lemma weak_val C P Q v x : val_is C P v x -> val_is C Q (weak v) x.
Proof. destruct v; cbn; try exact (fun h => h). exact (fun h => proj1 h). Qed.

(* A store to the suspend variable *)
Lemma sto_susp C m v : 0 <= v < 4294967296 -> s_suspend (sto 4 m (x_vars C + 20) v) (x_vars C) = v.
Proof. intros H. unfold s_suspend. apply ld_sto_same4. exact H. Qed.
Lemma sto_susp_stays C m v : stays C m (sto 4 m (x_vars C + 20) v).
Proof. intros x H _. apply sto_other. change (Z.of_nat 4) with 4. lia. Qed.
Lemma sto_susp_slot C m v k : ctx_ok C -> -64 <= k -> ld 8 (sto 4 m (x_vars C + 20) v) (x_sp C + k) = ld 8 m (x_sp C + k).
Proof. intros HC Hk. apply ld_ext. intros x Hx. change (Z.of_nat 8) with 8 in Hx. apply sto_other. change (Z.of_nat 4) with 4. destruct HC. lia. Qed.
Lemma sto_susp_clock C m v : ctx_ok C -> ld 8 (sto 4 m (x_vars C + 20) v) (x_text C - 88) = ld 8 m (x_text C - 88).
Proof. intros HC. apply ld_ext. intros x Hx. change (Z.of_nat 8) with 8 in Hx. apply sto_other. change (Z.of_nat 4) with 4. destruct HC. lia. Qed.
Lemma vars0_ea C A g s off : ctx_ok C -> gam C A g s -> is_vars0 (areg A rcx) = true -> off = 20 -> ea rcx None off s = x_vars C + 20.
Proof.
  intros HC HG Hv ->. pose proof (ea_ok C A g s rcx 20 HG) as He. destruct (areg A rcx); try discriminate. cbn in Hv. apply Z.eqb_eq in Hv. subst k. rewrite He. apply u64_small. destruct HC. lia.
Qed.

Lemma t_alu_mem_ok C A g s o w src b off out :
  ctx_ok C -> gam C A g s -> plain (aph A) = true -> t_alu_mem (pc s) o w src b off A = Some out ->
  out_ok C g s out (exec (length runtime) (Alu o w src (M b None off)) s).
Proof.
  intros HC HG Hp Ht. unfold t_alu_mem in Ht. destruct b; try discriminate.
  - (* rcx *) destruct src as [|z|]; try discriminate. destruct o; try discriminate. destruct (aph A) eqn:Ep; try discriminate.
    destruct (_ && _) eqn:E; [|discriminate]. apply andb_prop in E as [E E4]. apply andb_prop in E as [E E3]. apply andb_prop in E as [E1 E2].
    apply Z.eqb_eq in E2. apply Z.eqb_eq in E3. apply Z.eqb_eq in E4. subst w z off. injection Ht as <-.
    pose proof (vars0_ea C A g s 20 HC HG E1 eq_refl) as Hea.
    cbn [exec]. cbv zeta. cbn [val put alu_val]. change (Z.to_nat 4) with 4%nat. change (2 mod card 4) with 2. rewrite Hea.
    set (S0 := ld 4 (mm s) (x_vars C + 20)). pose proof (ld4_range (mm s) (x_vars C + 20) (ga_mem _ _ _ _ HG)) as RS. fold S0 in RS.
    pose proof (lor2_range S0 RS) as RL.
    apply next_ok; [|apply sto_susp_stays|reflexivity].
    pose proof (sto_susp C (mm s) (Z.lor S0 2) RL) as Hsu.
    destruct HG. constructor; cbn [aph azf alt aslots put_flags put_phase put_slots areg set_flags set_rg set_mm mm rg zf lt cbase]; try assumption; try (apply some_flag).
    + intros y. eapply val_is_weaker; [|apply ga_regs0]. unfold reg_claim. destruct y; try (exact (fun h => h)). cbn [aph put_flags put_phase]. rewrite Ep. cbn [claim]. intros H Hg. left. exact (H Hg).
    + intros a. apply sto_range. exact ga_mem0.
    + intros k v Hin. apply in_weak in Hin. destruct Hin as (v' & Hin & ->). destruct (ga_slots0 k v' Hin) as (H1 & H2 & H3). split; [exact H1|]. split; [exact H2|].
      rewrite (sto_susp_slot C _ _ k HC H1). eapply weak_val. exact H3.
    + unfold susp. cbn [mm set_flags set_mm]. rewrite Hsu. rewrite prot_bit by lia. rewrite Z.lor_spec. apply orb_true_r.
    + rewrite (sto_susp_clock C _ _ HC). exact ga_clock0.
  - (* rsp *) assert (Hout : exists A', w = 4 /\ astore 4 rsp off Top A = Some A' /\ out = Nexts [(S (pc s), put_flags true true A')]).
    { destruct src, o, (aph A); try discriminate; destruct (w =? 4) eqn:E; try discriminate; apply Z.eqb_eq in E; destruct (astore 4 rsp off Top A) as [A'|]; try discriminate; injection Ht as <-; exists A'; auto. }
    destruct Hout as (A' & -> & Ha & ->). cbn [exec]. cbv zeta. cbn [put].
    destruct (val_range 4 (M rsp None off) s eq_refl (ga_mem _ _ _ _ HG)) as [_ Hd]. destruct (val_range 4 src s eq_refl (ga_mem _ _ _ _ HG)) as [_ Hv].
    pose proof (alu_range o 4 _ _ eq_refl Hd Hv) as Hr.
    destruct (gam_store C A A' g s 4 rsp off Top _ HC HG Hp eq_refl Ha Hr) as (H1 & H2 & H3); [intros; exact Logic.I|].
    apply next_ok; [|exact H2|reflexivity]. apply gam_flags; [exact H1|rewrite H3; exact Hp|apply some_flag|apply some_flag].
Qed.

(** * Stack *)

Lemma gam_get_sp C A g s k : gam C A g s -> areg A rsp = Sp k -> rget rsp (rg s) = x_sp C + k /\ -64 <= k <= 0.
Proof.
  intros HG H. pose proof (ga_regs _ _ _ _ HG rsp) as Hs. destruct (ga_rsp _ _ _ _ HG) as (k' & Hk & Hr). rewrite H in *. injection Hk as <-. split; [exact Hs|exact Hr].
Qed.
Lemma push_ok C A g s k v x :
  ctx_ok C -> gam C A g s -> plain (aph A) = true -> areg A rsp = Sp k -> -64 <= k - 8 -> 0 <= x < 18446744073709551616 ->
  val_is C (slot_claim C A g s) v x ->
  gam C (t_push k v A) g (push x s) /\ stays C (mm s) (mm (push x s)) /\ pc (push x s) = pc s.
Proof.
  intros HC HG Hp Hk H8 Hx Hv. destruct (gam_get_sp C A g s k HG Hk) as [Hs Rk].
  unfold push. cbv zeta. rewrite Hs. rewrite u64_small by (destruct HC; lia). replace (x_sp C + k - 8) with (x_sp C + (k - 8)) by lia.
  pose proof (gam_rsp C A g s (k - 8) HG Hp ltac:(lia) HC) as H1.
  destruct (gam_sto_sp C _ g _ 8 (k - 8) v x HC H1 Hp eq_refl ltac:(lia) ltac:(lia) Hx) as [H2 H3]; [intros _; exact Hv|].
  split; [|split; [exact H3|reflexivity]]. unfold t_push. change (8 =? 8) with true in H2. cbn match in H2. replace (k - 8 + 8) with k in H2 by lia. exact H2.
Qed.
Lemma reg_slot_val C A g s r : gam C A g s -> val_is C (slot_claim C A g s) (match r with rbx => areg A rbx | _ => weak (areg A r) end) (rget r (rg s)).
Proof.
  intros HG. pose proof (ga_regs _ _ _ _ HG r) as H.
  destruct r; try (eapply weak_val; exact H).
  eapply val_is_weaker; [|exact H]. unfold slot_claim, reg_claim. destruct (aph A); try (intros _; exact Logic.I). exact (fun h => h).
Qed.
Lemma pop_ok C A g s k :
  ctx_ok C -> gam C A g s -> plain (aph A) = true -> areg A rsp = Sp k -> k + 8 <= 0 ->
  fst (pop s) = ld 8 (mm s) (x_sp C + k) /\ gam C (put_reg rsp (Sp (k + 8)) A) g (snd (pop s)) /\ mm (snd (pop s)) = mm s /\ pc (snd (pop s)) = pc s.
Proof.
  intros HC HG Hp Hk H8. destruct (gam_get_sp C A g s k HG Hk) as [Hs Rk].
  unfold pop. cbv zeta. cbn [fst snd]. rewrite Hs. rewrite u64_small by (destruct HC; lia). replace (x_sp C + k + 8) with (x_sp C + (k + 8)) by lia.
  split; [reflexivity|]. split; [|split; reflexivity]. apply gam_rsp; try assumption. lia.
Qed.
Lemma t_pop_ok C A g s r k out :
  ctx_ok C -> gam C A g s -> plain (aph A) = true -> areg A rsp = Sp k -> k + 8 <= 0 -> t_pop (pc s) r k A = Some out ->
  out_ok C g s out (exec (length runtime) (Pop r) s).
Proof.
  intros HC HG Hp Hk H8 Ht. destruct (pop_ok C A g s k HC HG Hp Hk H8) as (Hf & H1 & Hm & Hpc).
  pose proof (slot_val C A g s k HG) as Hsl. pose proof (ld8_range (mm s) (x_sp C + k) (ga_mem _ _ _ _ HG)) as Rl.
  cbn [exec]. destruct (pop s) as [x s1]. cbn [fst snd] in *. rewrite Hf. clear Hf x.
  unfold t_pop in Ht. cbv zeta in Ht.
  assert (Hgen : special r = false -> out = Nexts [(S (pc s), put_reg r Top (put_reg rsp (Sp (k + 8)) A))] ->
    out_ok C g s out (next (set_rg s1 (rset r (ld 8 (mm s) (x_sp C + k)) (rg s1))))).
  { intros Hsp ->. apply next_ok; [|cbn [mm set_rg]; rewrite Hm; apply stays_refl|exact Hpc]. apply gam_reg; try assumption. exact Logic.I. }
  destruct r; try (apply Hgen; [reflexivity|]; destruct (slot k (aslots A)); injection Ht as <-; reflexivity).
  - (* rbx *) destruct (slot k (aslots A)) eqn:Es; try discriminate. destruct (aph A) eqn:Ep; try discriminate. injection Ht as <-.
    destruct (Hsl ltac:(discriminate)) as (_ & _ & [Hl Hc]). unfold slot_claim in Hc. rewrite Ep in Hc.
    apply next_ok; [|cbn [mm set_rg]; rewrite Hm; apply stays_refl|exact Hpc].
    destruct H1. constructor; cbn [aph azf alt aslots put_reg areg set_rg mm rg zf lt cbase] in *; try assumption.
    + intros y. rewrite rget_rset. destruct (reg_eqb y rbx) eqn:E; [apply reg_eqb_eq in E; subst y|].
      * rewrite ga_rbx0. split; [exact Hl|]. unfold reg_claim. cbn [aph put_reg]. rewrite Ep. cbn [claim] in Hc |- *. unfold susp in *. cbn [mm set_rg]. rewrite Hm. exact Hc.
      * eapply val_is_weaker; [|apply ga_regs0]. unfold reg_claim. destruct y; try (exact (fun h => h)). discriminate.
    + intros y. rewrite rget_rset. destruct (reg_eqb y rbx); [exact Rl|apply ga_rng0].
  - (* rsp *) destruct (slot k (aslots A)); discriminate.
  - (* r15 *) destruct (slot k (aslots A)) eqn:Es; try discriminate. cbn [is_text] in Ht. destruct (0 =? k0) eqn:E0; [|discriminate]. apply Z.eqb_eq in E0. subst k0. injection Ht as <-.
    destruct (Hsl ltac:(discriminate)) as (_ & _ & Hv). cbn [val_is] in Hv.
    apply next_ok; [|cbn [mm set_rg]; rewrite Hm; apply stays_refl|exact Hpc].
    destruct H1. constructor; cbn [aph azf alt aslots put_reg areg set_rg mm rg zf lt cbase] in *; try assumption.
    + intros y. rewrite rget_rset. destruct (reg_eqb y r15) eqn:E; [apply reg_eqb_eq in E; subst y|].
      * rewrite ga_r16. exact Hv.
      * eapply val_is_weaker; [|apply ga_regs0]. unfold reg_claim. destruct y; try (exact (fun h => h)). apply claim_ext; [exact Hp|reflexivity].
    + intros y. rewrite rget_rset. destruct (reg_eqb y r15); [exact Rl|apply ga_rng0].
Qed.
Lemma t_ret_ok C A g s k out :
  ctx_ok C -> gam C A g s -> plain (aph A) = true -> areg A rsp = Sp k -> k + 8 <= 0 -> t_ret k A = Some out ->
  out_ok C g s out (exec (length runtime) Ret s).
Proof.
  intros HC HG Hp Hk H8 Ht. destruct (pop_ok C A g s k HC HG Hp Hk H8) as (Hf & H1 & Hm & Hpc).
  pose proof (slot_val C A g s k HG) as Hsl. pose proof (ga_base _ _ _ _ H1) as Hb.
  cbn [exec]. destruct (pop s) as [x s1]. cbn [fst snd] in *. subst x. unfold t_ret in Ht. cbv zeta in Ht.
  destruct (slot k (aslots A)) eqn:Es; try discriminate.
  - (* Text *) assert (Hout : k0 = 16 /\ exists nx, out = Leave false (put_reg rsp (Sp (k + 8)) A) nx).
    { destruct k0 as [|p|]; try discriminate. destruct p as [p|p|]; try discriminate. destruct p as [p|p|]; try discriminate. destruct p as [p|p|]; try discriminate. destruct p as [p|p|]; try discriminate. destruct p as [p|p|]; try discriminate.
      split; [reflexivity|]. destruct (aph A); try discriminate. destruct (k + 8 =? 0); [injection Ht as <-; eexists; reflexivity|].
      destruct (slot (k + 8) (aslots A)); try discriminate. destruct (_ <=? _); [|discriminate]. injection Ht as <-; eexists; reflexivity. }
    destruct Hout as (-> & nx & ->). destruct (Hsl ltac:(discriminate)) as (_ & _ & Hv). cbn [val_is] in Hv. rewrite Hv.
    cbn [out_ok]. exists s1. split; [|split; [exact H1|exact Hm]]. apply goto_out. change (Z.of_nat (length runtime)) with 340. rewrite Hb. destruct HC. lia.
  - (* Clock *) assert (Hout : exists nx, out = Leave true (put_reg rsp (Sp (k + 8)) A) nx).
    { destruct (aph A); try discriminate. destruct (slot (k + 8) (aslots A)); try discriminate. match goal with H : context [match ?x with Top => _ | _ => _ end] |- _ => destruct x; try discriminate end. destruct (_ && _); [|discriminate]. injection Ht as <-; eexists; reflexivity. }
    destruct Hout as (nx & ->). destruct (Hsl ltac:(discriminate)) as (_ & _ & Hv). cbn [val_is] in Hv. rewrite Hv.
    cbn [out_ok]. exists s1. split; [|split; [exact H1|exact Hm]]. apply goto_out. change (Z.of_nat (length runtime)) with 340. rewrite Hb. destruct HC. tauto.
Qed.

(** * All instructions *)

Lemma cond_defined C A g s c : gam C A g s -> flags_for c A = true -> exists b, cond_holds c (zf s) (lt s) = Some b.
Proof.
  intros HG H. pose proof (ga_zf _ _ _ _ HG) as Hz. pose proof (ga_lt _ _ _ _ HG) as Hl.
  destruct c; cbn [flags_for cond_holds] in *.
  - exact (Hz H).
  - destruct (Hz H) as [b ->]. eexists. reflexivity.
  - exact (Hl H).
  - apply andb_prop in H as [H1 H2]. destruct (Hz H1) as [b ->]. destruct (Hl H2) as [b' ->]. eexists. reflexivity.
  - destruct (Hl H) as [b ->]. eexists. reflexivity.
Qed.
Lemma no_flag (x : option bool) : false = true -> exists y, x = Some y. Proof. discriminate. Qed.
Lemma shr_range w n x : w48 w = true -> 0 <= n -> 0 <= x < card w -> 0 <= Z.shiftr x n < card w.
Proof.
  intros _ Hn Hx. rewrite Z.shiftr_div_pow2 by lia. assert (1 <= 2 ^ n) by (pose proof (Z.pow_pos_nonneg 2 n ltac:(lia) Hn); lia).
  split; [apply Z.div_pos; lia|]. apply Z.le_lt_trans with x; [|lia]. apply Z.div_le_upper_bound; [lia|].
  replace x with (1 * x) at 1 by lia. apply Z.mul_le_mono_nonneg_r; lia.
Qed.
Lemma card_pos w : w48 w = true -> 0 < card w.
Proof. intros H. apply w48_cases in H. destruct H; subst; reflexivity. Qed.

Lemma t_plain_ok C A g s i out :
  ctx_ok C -> gam C A g s -> plain (aph A) = true -> t_plain (pc s) i A = Some out -> (pc s < 340)%nat ->
  out_ok C g s out (exec (length runtime) i s).
Proof.
  intros HC HG Hp Ht Hlen. destruct i as [w src dst|o w src dst|w src dst|w src dst|src r|l r|l|c l|l| |r|r|w r m|w a r|r|w r|w n r|w n r| | |]; cbn [t_plain] in Ht; try discriminate.
  - (* Mov *) destruct dst as [r| |b [x|] off]; try discriminate.
    + destruct (_ && _) eqn:E; [|discriminate]. apply andb_prop in E as [E1 E2]. apply negb_true_iff in E2. injection Ht as <-. apply t_mov_reg; assumption.
    + destruct (w48 w) eqn:E; [|discriminate]. destruct (astore _ _ _ _ _) as [A'|] eqn:Ea; [|discriminate]. injection Ht as <-. eapply t_mov_mem; eassumption.
  - (* Alu *) destruct dst as [r| |b [x|] off]; try discriminate.
    + destruct (w48 w) eqn:E; [|discriminate]. destruct (special r) eqn:Es; cbn [negb] in Ht.
      * eapply t_alu_special_ok; eassumption.
      * injection Ht as <-. apply t_alu_reg; assumption.
    + eapply t_alu_mem_ok; eassumption.
  - (* Cmp *) destruct (size_ok w); [|discriminate]. injection Ht as <-. cbn [exec]. cbv zeta. apply next_ok; [|apply stays_refl|reflexivity].
    apply gam_flags; [exact HG|exact Hp|apply some_flag|apply some_flag].
  - (* Test *) destruct (size_ok w); [|discriminate]. injection Ht as <-. cbn [exec]. cbv zeta. apply next_ok; [|apply stays_refl|reflexivity].
    apply gam_flags; [exact HG|exact Hp|apply some_flag|apply some_flag].
  - (* Lea *) destruct src as [| |b x off]; try discriminate. destruct (special r) eqn:Es; [discriminate|]. injection Ht as <-. cbn [exec].
    apply next_ok; [|apply stays_refl|reflexivity]. apply gam_reg; try assumption; [apply u64_range|].
    pose proof (ga_regs _ _ _ _ HG b) as Hb. destruct (areg A b); try exact Logic.I. destruct x; try exact Logic.I. destruct (k + off =? 16) eqn:E; [|exact Logic.I].
    apply Z.eqb_eq in E. cbn [val_is] in Hb |- *. unfold ea. rewrite Hb. rewrite u64_small by (destruct HC; lia). lia.
  - (* Jmp *) injection Ht as <-. cbn [exec]. exists (set_pc s l), A. split; [reflexivity|]. split; [left; reflexivity|]. split; [apply gam_pc; exact HG|apply stays_refl].
  - (* Jcc *) destruct (flags_for c A) eqn:E; [|discriminate]. injection Ht as <-. cbn [exec]. destruct (cond_defined C A g s c HG E) as [b ->].
    destruct b.
    + exists (set_pc s l), A. split; [reflexivity|]. split; [left; reflexivity|]. split; [apply gam_pc; exact HG|apply stays_refl].
    + exists (set_pc s (S (pc s))), A. split; [reflexivity|]. split; [right; left; reflexivity|]. split; [apply gam_pc; exact HG|apply stays_refl].
  - (* Call *) destruct (areg A rsp) eqn:Es; try discriminate. destruct (_ && _) eqn:E; [|discriminate]. apply andb_prop in E as [E1 E2]. apply Z.leb_le in E1. apply Z.ltb_lt in E2. injection Ht as <-.
    cbn [exec]. pose proof (ga_base _ _ _ _ HG) as Hb.
    assert (Hu : u64 (cbase s + Z.of_nat (S (pc s))) = x_base C + Z.of_nat (S (pc s))) by (rewrite Hb; apply u64_small; destruct HC; lia).
    rewrite Hu.
    destruct (push_ok C A g s k (Code (S (pc s))) (x_base C + Z.of_nat (S (pc s))) HC HG Hp Es E1) as (H1 & H2 & H3).
    { destruct HC; lia. }
    { cbn [val_is]. split; [reflexivity|lia]. }
    exists (set_pc (push (x_base C + Z.of_nat (S (pc s))) s) l), (t_push k (Code (S (pc s))) A). split; [reflexivity|]. split; [left; reflexivity|]. split; [apply gam_pc; exact H1|exact H2].
  - (* Ret *) destruct (areg A rsp) eqn:Es; try discriminate. destruct (k + 8 <=? 0) eqn:E; [|discriminate]. apply Z.leb_le in E. eapply t_ret_ok; eassumption.
  - (* Push *) destruct (areg A rsp) eqn:Es; try discriminate. destruct (-64 <=? k - 8) eqn:E1; [|discriminate]. apply Z.leb_le in E1. injection Ht as <-.
    cbn [exec]. destruct (push_ok C A g s k _ (rget r (rg s)) HC HG Hp Es E1 (ga_rng _ _ _ _ HG r) (reg_slot_val C A g s r HG)) as (H1 & H2 & H3).
    apply next_ok; [exact H1|exact H2|exact H3].
  - (* Pop *) destruct (areg A rsp) eqn:Es; try discriminate. destruct (k + 8 <=? 0) eqn:E; [|discriminate]. apply Z.leb_le in E. eapply t_pop_ok; eassumption.
  - (* Xchg *) destruct r; try discriminate. destruct m as [| |b [x|] off]; try discriminate; destruct b; try discriminate. destruct (aph A) eqn:Ep; try discriminate.
    destruct (_ && _) eqn:E; [|discriminate]. apply andb_prop in E as [E E4]. apply andb_prop in E as [E E3]. apply andb_prop in E as [E1 E2].
    apply Z.eqb_eq in E3. apply Z.eqb_eq in E4. subst w off. injection Ht as <-.
    pose proof (vars0_ea C A g s 20 HC HG E2 eq_refl) as Hea.
    assert (Hax : rget rax (rg s) = 0).
    { pose proof (ga_regs _ _ _ _ HG rax) as H. destruct (areg A rax); try discriminate. cbn in E1. apply Z.eqb_eq in E1. subst z. exact H. }
    cbn [exec val put]. change (Z.to_nat 4) with 4%nat. rewrite Hea, Hax. change (0 mod card 4) with 0. change (wide 4) with true. cbn match.
    cbn [set_mm rg mm].
    set (S0 := ld 4 (mm s) (x_vars C + 20)). pose proof (ld4_range (mm s) (x_vars C + 20) (ga_mem _ _ _ _ HG)) as RS. fold S0 in RS.
    apply next_ok; [|apply sto_susp_stays|reflexivity].
    pose proof (sto_susp C (mm s) 0 ltac:(lia)) as Hsu.
    destruct HG. constructor; cbn [aph azf alt aslots put_flags put_phase put_slots put_reg areg set_flags set_rg set_mm mm rg zf lt cbase]; try assumption.
    + intros y. rewrite rget_rset. unfold aset. destruct (reg_eqb y rax) eqn:E; [exact Logic.I|].
      eapply val_is_weaker; [|apply ga_regs0]. unfold reg_claim. destruct y; try (exact (fun h => h)). cbn [aph put_phase]. rewrite Ep. cbn [claim set_rg rg set_mm]. rewrite rget_rset. cbn match.
      intros H Hg. destruct (H Hg) as [H'|H']; [left; exact H'|right; exact H'].
    + intros y. rewrite rget_rset. destruct (reg_eqb y rax); [lia|apply ga_rng0].
    + intros a. apply sto_range. exact ga_mem0.
    + intros k v Hin. destruct (ga_slots0 k v Hin) as (H1 & H2 & H3). split; [exact H1|]. split; [exact H2|].
      rewrite (sto_susp_slot C _ _ k HC H1). eapply val_is_weaker; [|exact H3]. intros _. exact Logic.I.
    + unfold susp. cbn [mm set_flags set_mm set_rg]. rewrite Hsu. reflexivity.
    + rewrite (sto_susp_clock C _ _ HC). exact ga_clock0.
  - (* Cmove *) destruct (_ || _) eqn:E; [discriminate|]. apply orb_false_iff in E as [E E3]. apply orb_false_iff in E as [E1 E2]. apply negb_false_iff in E2. apply negb_false_iff in E3. apply Z.eqb_eq in E3. subst w. injection Ht as <-.
    cbn [exec]. destruct (ga_zf _ _ _ _ HG E2) as [b ->]. rewrite (put_wide 4 r _ s eq_refl).
    apply next_ok; [|apply stays_refl|reflexivity]. apply gam_reg; try assumption; [|exact Logic.I].
    destruct (val_range 4 (R (if b then a else r)) s eq_refl (ga_mem _ _ _ _ HG)) as [H _]. exact H.
  - (* Mul *) injection Ht as <-. cbn [exec]. cbv zeta. apply next_ok; [|apply stays_refl|reflexivity].
    apply gam_flags; [|exact Hp|apply no_flag|apply no_flag].
    pose proof (ga_rng _ _ _ _ HG rax) as R1. pose proof (ga_rng _ _ _ _ HG r) as R2.
    assert (H1 : gam C (put_reg rax Top A) g (set_rg s (rset rax (u64 (rget rax (rg s) * rget r (rg s))) (rg s)))) by (apply gam_reg; try assumption; [reflexivity|apply u64_range|exact Logic.I]).
    pose proof (gam_reg C _ g _ rdx Top (high64 (rget rax (rg s) * rget r (rg s))) H1 Hp eq_refl) as H2. apply H2; [|exact Logic.I].
    unfold high64. change (2 ^ 64) with 18446744073709551616. split; [apply Z.div_pos; nia|]. apply Z.div_lt_upper_bound; [lia|]. nia.
  - (* Dec *) destruct (_ || _) eqn:E; [discriminate|]. apply orb_false_iff in E as [E1 E2]. apply negb_false_iff in E2. injection Ht as <-.
    cbn [exec]. cbv zeta. rewrite (put_wide w r _ s E2). apply next_ok; [|apply stays_refl|reflexivity]. apply gam_flags; [|exact Hp|apply some_flag|apply some_flag].
    apply gam_reg; try assumption; [|exact Logic.I]. pose proof (Z.mod_pos_bound (val w (R r) s - 1) (card w) (card_pos w E2)). pose proof (card_le w E2). lia.
  - (* Shl *) destruct (_ || _) eqn:E; [discriminate|]. apply orb_false_iff in E as [E E3]. apply orb_false_iff in E as [E1 E2]. apply negb_false_iff in E2. injection Ht as <-.
    cbn [exec]. cbv zeta. rewrite (put_wide w r _ s E2). apply next_ok; [|apply stays_refl|reflexivity]. apply gam_flags; [|exact Hp|apply some_flag|apply no_flag].
    apply gam_reg; try assumption; [|exact Logic.I]. pose proof (Z.mod_pos_bound (Z.shiftl (val w (R r) s) n) (card w) (card_pos w E2)). pose proof (card_le w E2). lia.
  - (* Shr *) destruct (_ || _) eqn:E; [discriminate|]. apply orb_false_iff in E as [E E3]. apply orb_false_iff in E as [E1 E2]. apply negb_false_iff in E2. apply Z.ltb_ge in E3. injection Ht as <-.
    cbn [exec]. cbv zeta. rewrite (put_wide w r _ s E2). apply next_ok; [|apply stays_refl|reflexivity]. apply gam_flags; [|exact Hp|apply some_flag|apply no_flag].
    apply gam_reg; try assumption; [|exact Logic.I]. destruct (val_range w (R r) s E2 (ga_mem _ _ _ _ HG)) as [_ Hr]. pose proof (shr_range w n _ E2 E3 Hr). pose proof (card_le w E2). lia.
  - (* Syscall *) destruct (aph A) eqn:Ep; try discriminate. destruct (areg A rax); try discriminate. cbn [exec].
    assert (Hout : exists nx, out = Sysc A nx) by (destruct (z =? SYS_exit_group); [injection Ht as <-; eexists; reflexivity|]; destruct (existsb _ _); [|discriminate]; injection Ht as <-; eexists; reflexivity).
    destruct Hout as (nx & ->). cbn [out_ok]. exists (set_pc s (S (pc s))). split; [reflexivity|]. split; [reflexivity|]. split; [apply gam_pc; exact HG|reflexivity].
Qed.

Lemma odd_land1 x : (Z.land x 1 =? 0) = negb (Z.odd x).
Proof.
  assert (E : Z.land x 1 = if Z.odd x then 1 else 0).
  { change 1 with (Z.ones 1) at 1. rewrite Z.land_ones by lia. change (2 ^ 1) with 2. apply Zmod_odd. }
  rewrite E. destruct (Z.odd x); reflexivity.
Qed.
Lemma odd_mod4 x : Z.odd (x mod card 4) = Z.odd x.
Proof. rewrite <- !Z.bit0_odd. change (card 4) with (2 ^ 32). apply Z.mod_pow2_bits_low. lia. Qed.
Lemma t_p2_ok C A g s i out :
  gam C A g s -> aph A = P2 -> t_p2 (pc s) i A = Some out -> out_ok C g s out (exec (length runtime) i s).
Proof.
  intros HG Hp Ht. destruct i as [| | |w src dst| | | | | | | | | | | | | | | | |]; try discriminate. cbn [t_p2] in Ht. destruct src as [|z|]; try discriminate. destruct dst as [[]| |]; try discriminate.
  destruct (_ && _) eqn:E; [|discriminate]. apply andb_prop in E as [E1 E2]. apply Z.eqb_eq in E1. apply Z.eqb_eq in E2. subst w z. injection Ht as <-.
  cbn [exec]. cbv zeta. apply next_ok; [|apply stays_refl|reflexivity]. cbn [val]. change (1 mod card 4) with 1. rewrite odd_land1, odd_mod4.
  destruct HG. constructor; cbn [aph azf alt aslots put_flags put_phase put_slots put_reg areg set_flags set_rg set_mm mm rg zf lt cbase]; try assumption; try (apply some_flag).
  - intros y. eapply val_is_weaker; [|apply ga_regs0]. unfold reg_claim. destruct y; try (exact (fun h => h)). cbn [aph put_phase put_flags]. rewrite Hp. cbn [claim zf set_flags].
    intros H Hg. destruct (H Hg) as [H'|H']; [left; exact H'|right; rewrite H'; reflexivity].
  - intros k v Hin. destruct (ga_slots0 k v Hin) as (H1 & H2 & H3). split; [exact H1|]. split; [exact H2|]. eapply val_is_weaker; [|exact H3]. intros _. exact Logic.I.
  - etransitivity; [exact ga_prot0|rewrite Hp; reflexivity].
Qed.
Lemma t_p3_ok C A g s i out :
  gam C A g s -> aph A = P3 -> t_p3 (pc s) i A = Some out -> out_ok C g s out (exec (length runtime) i s).
Proof.
  intros HG Hp Ht. destruct i; try discriminate. cbn [t_p3] in Ht. destruct c; try discriminate. destruct (azf A) eqn:Hz; [|discriminate]. injection Ht as <-.
  cbn [exec cond_holds]. destruct (ga_zf _ _ _ _ HG Hz) as [b Hb]. rewrite Hb.
  assert (Hgam : forall p, (p = P0 /\ b = true) \/ p = P4 -> gam C (put_phase p A) g s).
  { intros p Hpb. destruct HG. constructor; cbn [aph azf alt aslots put_phase areg]; try assumption.
    - intros y. eapply val_is_weaker; [|apply ga_regs0]. unfold reg_claim. destruct y; try (exact (fun h => h)). cbn [aph put_phase]. rewrite Hp. cbn [claim].
      intros H. destruct Hpb as [[-> ->]| ->]; [|exact Logic.I]. intros Hg. destruct (H Hg) as [H'|H']; [exact H'|congruence].
    - intros k v Hin. destruct (ga_slots0 k v Hin) as (H1 & H2 & H3). split; [exact H1|]. split; [exact H2|]. eapply val_is_weaker; [|exact H3]. intros _. destruct Hpb as [[-> _]| ->]; exact Logic.I.
    - etransitivity; [exact ga_prot0|rewrite Hp; destruct Hpb as [[-> _]| ->]; reflexivity]. }
  destruct b.
  - exists (set_pc s l), (put_phase P0 A). split; [reflexivity|]. split; [left; reflexivity|]. split; [apply gam_pc; apply Hgam; left; auto|apply stays_refl].
  - exists (set_pc s (S (pc s))), (put_phase P4 A). split; [reflexivity|]. split; [right; left; reflexivity|]. split; [apply gam_pc; apply Hgam; right; reflexivity|apply stays_refl].
Qed.

(** * Exploration *)

Definition visited (p : nat) (A : ast) : Prop := exists n, (if existsb (Nat.eqb p) entries then like_entry A else explore n p A) = true.
Lemma entries_explored : forallb (fun p => explore 200 p entry) entries = true.
Proof. vm_compute. reflexivity. Qed.
Lemma entry_gam C A g s : gam C A g s -> like_entry A = true -> gam C entry g s.
Proof.
  intros HG H. unfold like_entry in H. destruct (areg A rbx) eqn:E1; try discriminate. destruct (areg A rsp) eqn:E2; try discriminate. destruct (areg A r15) eqn:E3; try discriminate. destruct (aph A) eqn:E4; try discriminate.
  apply andb_prop in H as [H1 H2]. apply Z.eqb_eq in H1. apply Z.eqb_eq in H2. subst k k0.
  destruct HG. constructor; cbn [entry aph azf alt aslots areg]; try assumption; try discriminate; try reflexivity.
  - intros r. pose proof (ga_regs0 r) as Hr. destruct r; try exact Logic.I; [rewrite E1 in Hr|rewrite E2 in Hr|rewrite E3 in Hr]; try exact Hr.
    unfold reg_claim in *. rewrite E4 in Hr. exact Hr.
  - intros k v [].
  - rewrite E4 in ga_prot0. exact ga_prot0.
  - exists 0. split; [reflexivity|lia].
Qed.

Definition inv (C : ctx) (e : event) (g : bool) : Prop :=
  match e with
  | More s => exists n A, gam C A g s /\ explore n (pc s) A = true
  | AtSyscall s => In (rget rax (rg s)) permitted /\
      exists A, gam C A g s /\ aph A = P0 /\ (rget rax (rg s) = SYS_exit_group \/ visited (pc s) (after_sys A))
  | Outside a s =>
      (a = x_clock C /\ exists A k j l, gam C A g s /\ aph A = P1 /\ areg A rsp = Sp k /\ areg A rsi = Sp j /\ slot k (aslots A) = Code l /\
         k + 8 <= 0 /\ k + 8 <= j /\ j + 16 <= 0 /\ visited l (after_clock k j A)) \/
      (a = x_text C + 16 /\ exists A k, gam C A g s /\ aph A = P0 /\ areg A rsp = Sp k /\
         (k = 0 \/ exists l, slot k (aslots A) = Code l /\ k + 8 <= 0 /\ visited l (after_resume k A)))
  | Breakpoint _ | Stuck => False
  end.
Lemma visited_inv C A g s : visited (pc s) A -> gam C A g s -> inv C (More s) g.
Proof.
  intros [n Hv] HG. destruct (existsb (Nat.eqb (pc s)) entries) eqn:E; [|exists n, A; split; assumption].
  exists 200%nat, entry. split; [eapply entry_gam; eassumption|].
  pose proof entries_explored as He. rewrite forallb_forall in He. apply He. apply existsb_exists in E as (p & Hin & Hp). apply Nat.eqb_eq in Hp. rewrite Hp. exact Hin.
Qed.

Lemma atrans_ok C A g s i out :
  ctx_ok C -> gam C A g s -> (pc s < 340)%nat -> atrans (pc s) i A = Some out -> out_ok C g s out (exec (length runtime) i s).
Proof.
  intros HC HG Hl Ht. unfold atrans in Ht. destruct (aph A) eqn:Ep.
  - apply (t_plain_ok C A); try assumption. rewrite Ep. reflexivity.
  - apply (t_plain_ok C A); try assumption. rewrite Ep. reflexivity.
  - apply (t_p2_ok C A); assumption.
  - apply (t_p3_ok C A); assumption.
  - apply (t_plain_ok C A); try assumption. rewrite Ep. reflexivity.
Qed.
Lemma sysc_shape pc i A A1 nx : atrans pc i A = Some (Sysc A1 nx) ->
  A1 = A /\ aph A = P0 /\ exists z, areg A rax = Cst z /\ (if z =? SYS_exit_group then nx = None else In z permitted /\ nx = Some (after_sys A)).
Proof.
  unfold atrans. intros H.
  assert (Hpl : t_plain pc i A = Some (Sysc A1 nx)).
  { destruct (aph A) eqn:Ep; try exact H.
    - exfalso. destruct i as [| | |w src dst| | | | | | | | | | | | | | | | |]; try discriminate. cbn in H. destruct src; try discriminate. destruct dst as [[]| |]; try discriminate. destruct (_ && _); discriminate.
    - exfalso. destruct i; try discriminate. cbn in H. destruct c; try discriminate. destruct (azf A); discriminate. }
  clear H. destruct i as [w src dst|o w src dst|w src dst|w src dst|src r|l r|l|c l|l| |r|r|w r m|w a r|r|w r|w n r|w n r| | |]; cbn [t_plain] in Hpl; try discriminate.
  - destruct dst as [r| |b [x|] off]; try discriminate.
    + destruct (_ && _); discriminate.
    + destruct (w48 w); try discriminate. destruct (astore _ _ _ _ _); discriminate.
  - destruct dst as [r| |b [x|] off]; try discriminate.
    + destruct (w48 w); try discriminate. destruct (special r); cbn [negb] in Hpl; try discriminate. unfold t_alu_special in Hpl. destruct r; try discriminate.
      * destruct src as [[]| |]; try discriminate. destruct o; try discriminate. destruct (aph A); try discriminate. destruct (areg A rax); try discriminate. destruct (_ && _); discriminate.
      * destruct src; try discriminate. destruct (areg A rsp); try discriminate. cbv zeta in Hpl. destruct (match o with Asm.Add => Some (k + z) | Asm.Sub => Some (k - z) | _ => None end); try discriminate. destruct (_ && _); discriminate.
    + unfold t_alu_mem in Hpl. destruct b; try discriminate.
      * destruct src; try discriminate. destruct o; try discriminate. destruct (aph A); try discriminate. destruct (_ && _); discriminate.
      * destruct src, o, (aph A), (w =? 4); try discriminate; destruct (astore _ _ _ _ _); discriminate.
  - destruct (size_ok w); discriminate.
  - destruct (size_ok w); discriminate.
  - destruct src; try discriminate. destruct (special r); discriminate.
  - destruct (flags_for c A); discriminate.
  - destruct (areg A rsp); try discriminate. destruct (_ && _); discriminate.
  - destruct (areg A rsp); try discriminate. destruct (_ <=? _); try discriminate. unfold t_ret in Hpl. cbv zeta in Hpl. destruct (slot k (aslots A)); try discriminate.
    + destruct k0 as [|p|]; try discriminate. destruct p as [p|p|]; try discriminate. destruct p as [p|p|]; try discriminate. destruct p as [p|p|]; try discriminate. destruct p as [p|p|]; try discriminate. destruct p as [p|p|]; try discriminate.
      destruct (aph A); try discriminate. destruct (k + 8 =? 0); try discriminate. destruct (slot (k + 8) (aslots A)); try discriminate. destruct (_ <=? _); discriminate.
    + destruct (aph A); try discriminate. destruct (slot (k + 8) (aslots A)); try discriminate. match goal with H : context [match ?x with Top => _ | _ => _ end] |- _ => destruct x; try discriminate end. destruct (_ && _); discriminate.
  - destruct (areg A rsp); try discriminate. destruct (_ <=? _); discriminate.
  - destruct (areg A rsp); try discriminate. destruct (_ <=? _); try discriminate. unfold t_pop in Hpl. cbv zeta in Hpl. destruct r, (slot k (aslots A)); try discriminate; try (destruct (aph A); discriminate); cbn [is_text] in Hpl; try discriminate; try (destruct (_ =? _); discriminate).
  - destruct r; try discriminate. destruct m as [| |b [x|] off]; try discriminate; destruct b; try discriminate. destruct (aph A); try discriminate. destruct (_ && _); discriminate.
  - destruct (_ || _); discriminate.
  - destruct (_ || _); discriminate.
  - destruct (_ || _); discriminate.
  - destruct (_ || _); discriminate.
  - destruct (aph A); try discriminate. destruct (areg A rax); try discriminate. destruct (z =? SYS_exit_group) eqn:Ez.
    + injection Hpl as <- <-. split; [reflexivity|]. split; [reflexivity|]. exists z. rewrite Ez. auto.
    + destruct (existsb _ _) eqn:Ex; [|discriminate]. injection Hpl as <- <-. split; [reflexivity|]. split; [reflexivity|]. exists z. rewrite Ez. split; [reflexivity|]. split; [|reflexivity].
      apply existsb_exists in Ex as (z' & Hin & Hz). apply Z.eqb_eq in Hz. subst z'. exact Hin.
Qed.
