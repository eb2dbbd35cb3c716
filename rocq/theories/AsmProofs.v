(* AsmProofs.v: lemmas and tactics for executing the runtime's code symbolically. *)
From Verif Require Import RuntimeSpec.
From Coq Require Import Lia ZArith List Bool.
Import ListNotations.
Local Open Scope Z_scope.

Lemma ct_refl e : comes_to e e.
Proof. exists O. reflexivity. Qed.
Lemma ct_step s i e :
  nth_error runtime (pc s) = Some i -> comes_to (exec (length runtime) i s) e -> comes_to (More s) e.
Proof.
  intros Hn [n H]. exists (S n). cbn [continue_]. unfold step. rewrite Hn. exact H.
Qed.

Lemma continue_stop n e : (forall s, e <> More s) -> continue_ runtime n e = e.
Proof. intros H. destruct n; [reflexivity|]. destruct e; try reflexivity. destruct (H s eq_refl). Qed.
Lemma ct_trans e1 e2 e3 : comes_to e1 e2 -> comes_to e2 e3 -> comes_to e1 e3.
Proof.
  intros [n Hn] [k Hk]. exists (n + k)%nat. revert e1 Hn. induction n; intros e1 Hn; cbn [Nat.add].
  - cbn in Hn. destruct e1; cbn in Hn; subst e2; exact Hk.
  - destruct e1 as [s|s|a s|s|]; cbn [continue_] in Hn |- *.
    + apply IHn, Hn.
    + subst e2. rewrite continue_stop in Hk by discriminate. exact Hk.
    + subst e2. rewrite continue_stop in Hk by discriminate. exact Hk.
    + subst e2. rewrite continue_stop in Hk by discriminate. exact Hk.
    + subst e2. rewrite continue_stop in Hk by discriminate. exact Hk.
Qed.

Lemma ld_ext n m m' : forall a, (forall x, a <= x < a + Z.of_nat n -> m' x = m x) -> ld n m' a = ld n m a.
Proof.
  induction n; intros a H; cbn [ld]; [reflexivity|].
  rewrite (H a) by lia. rewrite (IHn (a + 1)); [reflexivity|]. intros; apply H; lia.
Qed.
Lemma ld_sto_other n k m a b v :
  a + Z.of_nat n <= b \/ b + Z.of_nat k <= a -> ld n (sto k m b v) a = ld n m a.
Proof.
  intros H. apply ld_ext. intros x Hx. unfold sto.
  destruct (b <=? x) eqn:E1; cbn [andb]; [|reflexivity].
  destruct (x <? b + Z.of_nat k) eqn:E2; [|reflexivity].
  apply Z.leb_le in E1. apply Z.ltb_lt in E2. lia.
Qed.
Lemma ld_range n m : (forall x, 0 <= m x < 256) -> forall a, 0 <= ld n m a < 2 ^ (8 * Z.of_nat n).
Proof.
  intros Hm. induction n; intros a; [cbn; lia|].
  cbn [ld]. specialize (IHn (a + 1)). specialize (Hm a).
  replace (8 * Z.of_nat (S n)) with (8 + 8 * Z.of_nat n) by lia.
  rewrite Z.pow_add_r by lia. change (2 ^ 8) with 256. nia.
Qed.
Lemma ld_sto_gen n : forall k m a b v, 0 <= v -> b <= a -> a + Z.of_nat n <= b + Z.of_nat k ->
  ld n (sto k m b v) a = (v / 2 ^ (8 * (a - b))) mod 2 ^ (8 * Z.of_nat n).
Proof.
  induction n; intros k m a b v Hv Ha Hk.
  - cbn. rewrite Z.mod_1_r. reflexivity.
  - cbn [ld]. rewrite IHn by lia. unfold sto.
    replace (b <=? a) with true by (symmetry; apply Z.leb_le; lia).
    replace (a <? b + Z.of_nat k) with true by (symmetry; apply Z.ltb_lt; lia).
    cbn [andb].
    replace (8 * (a + 1 - b)) with (8 * (a - b) + 8) by lia.
    replace (8 * Z.of_nat (S n)) with (8 + 8 * Z.of_nat n) by lia.
    rewrite (Z.pow_add_r 2 (8 * (a - b)) 8) by lia.
    rewrite (Z.pow_add_r 2 8) by lia. change (2 ^ 8) with 256.
    rewrite <- Z.div_div by lia.
    set (q := v / 2 ^ (8 * (a - b))).
    rewrite (Z.rem_mul_r q 256 (2 ^ (8 * Z.of_nat n))); try lia.
    all: apply Z.pow_pos_nonneg; lia.
Qed.
Lemma ld_sto_same n m a v : 0 <= v < 2 ^ (8 * Z.of_nat n) -> ld n (sto n m a v) a = v.
Proof.
  intros H. rewrite ld_sto_gen by lia. replace (a - a) with 0 by lia.
  change (2 ^ (8 * 0)) with 1. rewrite Z.div_1_r. apply Z.mod_small. lia.
Qed.
Lemma sto_range n m a v : (forall x, 0 <= m x < 256) -> forall x, 0 <= sto n m a v x < 256.
Proof.
  intros H x. unfold sto. destruct (_ && _); [apply Z.mod_pos_bound; lia|apply H].
Qed.
Lemma sto_other n m a v x : x < a \/ a + Z.of_nat n <= x -> sto n m a v x = m x.
Proof.
  intros H. unfold sto. destruct (a <=? x) eqn:E1; cbn [andb]; [|reflexivity].
  destruct (x <? a + Z.of_nat n) eqn:E2; [|reflexivity].
  apply Z.leb_le in E1. apply Z.ltb_lt in E2. lia.
Qed.

Lemma u64_small x : 0 <= x < 18446744073709551616 -> u64 x = x.
Proof. intros; apply Z.mod_small; assumption. Qed.
Lemma card8_small x : 0 <= x < 18446744073709551616 -> x mod card 8 = x.
Proof. intros; apply Z.mod_small; assumption. Qed.
Lemma card4_small x : 0 <= x < 4294967296 -> x mod card 4 = x.
Proof. intros; apply Z.mod_small; assumption. Qed.
Lemma card4_range x : 0 <= x mod card 4 < 2 ^ 32.
Proof. apply Z.mod_pos_bound. reflexivity. Qed.

Ltac fetch := eapply ct_step; [reflexivity|].
Ltac red_ins :=
  cbv beta iota zeta delta [exec next jump put val set_rg set_flags set_pc set_mm rg zf lt pc cbase mm rget rset
       g_rax g_rcx g_rdx g_rbx g_rsp g_rbp g_rsi g_rdi g_r8 g_r9 g_r10 g_r11 g_r12 g_r13 g_r14 g_r15
       ea alu_val cond_holds push pop wide negb Z.to_nat Pos.to_nat Pos.iter_op Nat.add];
  rewrite ?Z.add_0_r.

Lemma ld4_mod m a : (forall x, 0 <= m x < 256) -> ld 4 m a mod card 4 = ld 4 m a.
Proof. intros H. apply Z.mod_small. apply (ld_range 4); assumption. Qed.
Lemma ld8_mod m a : (forall x, 0 <= m x < 256) -> ld 8 m a mod card 8 = ld 8 m a.
Proof. intros H. apply Z.mod_small. apply (ld_range 8); assumption. Qed.

Lemma ld_sto_same8 m a v : 0 <= v < 18446744073709551616 -> ld 8 (sto 8 m a v) a = v.
Proof. intros H. apply (ld_sto_same 8). exact H. Qed.
Lemma ld_sto_same4 m a v : 0 <= v < 4294967296 -> ld 4 (sto 4 m a v) a = v.
Proof. intros H. apply (ld_sto_same 4). exact H. Qed.
Lemma goto_out len a s : ~ (cbase s <= a < cbase s + Z.of_nat len) -> goto len a s = Outside a s.
Proof.
  intros H. unfold goto. destruct (cbase s <=? a) eqn:E1; cbn [andb]; [|reflexivity].
  destruct (a <? _) eqn:E2; [|reflexivity]. apply Z.leb_le in E1. apply Z.ltb_lt in E2. lia.
Qed.
Lemma goto_in len a s n : a = cbase s + n -> 0 <= n < Z.of_nat len -> goto len a s = More (set_pc s (Z.to_nat n)).
Proof.
  intros -> H. unfold goto. replace (cbase s <=? _) with true by (symmetry; apply Z.leb_le; lia).
  replace (_ <? _) with true by (symmetry; apply Z.ltb_lt; lia). cbn [andb].
  replace (cbase s + n - cbase s) with n by lia. reflexivity.
Qed.

Lemma goto_rt b n s : cbase s = b -> 0 <= n < 340 -> goto (length runtime) (b + n) s = More (set_pc s (Z.to_nat n)).
Proof. intros <- H. apply goto_in; [reflexivity|exact H]. Qed.

Ltac norm1 :=
  match goal with
  | |- context [Z.land 0 ?x] => rewrite (Z.land_0_l x)
  | |- context [0 =? 0] => change (0 =? 0) with true
  | |- context [Z.lxor ?x ?x] => rewrite (Z.lxor_nilpotent x)
  | |- context [Z.of_nat ?n] => let v := eval vm_compute in (Z.of_nat n) in match v with Z.pos _ => change (Z.of_nat n) with v end
  | |- context [u64 ?x] => rewrite (u64_small x) by lia
  | |- context [?x mod card 8] => change (x mod card 8) with (u64 x)
  | |- context [?x mod card 4] => rewrite (card4_small x) by lia
  | |- context [ld 4 ?m ?a mod card 4] => rewrite (ld4_mod m a) by (repeat apply sto_range; assumption)
  | |- context [ld ?n (sto ?k ?m ?b ?v) ?a] => rewrite (ld_sto_other n k m a b v) by lia
  | |- context [ld 8 (sto 8 ?m ?a ?v) ?a] => rewrite (ld_sto_same8 m a v) by lia
  | |- context [ld 4 (sto 4 ?m ?a ?v) ?a] => rewrite (ld_sto_same4 m a v) by lia
  end.
Lemma fold_ss a b c d : b + c = d -> a - b - c = a - d. Proof. lia. Qed.
Lemma fold_sa a b c d : c - b = d -> a - b + c = a + d. Proof. lia. Qed.
Lemma fold_as a b c d : b - c = d -> a + b - c = a + d. Proof. lia. Qed.
Lemma fold_aa a b c d : b + c = d -> a + b + c = a + d. Proof. lia. Qed.
Lemma add_neg a p : a + Z.neg p = a - Z.pos p. Proof. lia. Qed.
Ltac fold_const l a b c := first [erewrite (l a b c) by (vm_compute; reflexivity)].
Ltac addr1 :=
  match goal with
  | |- context [?a + Z.neg ?p] => rewrite (add_neg a p)
  | |- context [?a - Z.pos ?b - Z.pos ?c] => fold_const fold_ss a (Z.pos b) (Z.pos c)
  | |- context [?a - Z.pos ?b + Z.pos ?c] => fold_const fold_sa a (Z.pos b) (Z.pos c)
  | |- context [?a + Z.pos ?b - Z.pos ?c] => fold_const fold_as a (Z.pos b) (Z.pos c)
  | |- context [?a + Z.pos ?b + Z.pos ?c] => fold_const fold_aa a (Z.pos b) (Z.pos c)
  | |- context [?a + 0] => rewrite (Z.add_0_r a)
  | |- context [?a - 0] => rewrite (Z.sub_0_r a)
  end.
Ltac norm := repeat first [addr1 | norm1].
Ltac open_imported H :=
  let Hsp := fresh "Hsp" in let Htext := fresh "Htext" in let Hlim := fresh "Hlim" in let Hregs := fresh "Hregs" in
  let Hmem := fresh "Hmem" in let Hrange := fresh "Hrange" in let Hapart := fresh "Hapart" in let Hcode := fresh "Hcode" in let Hvdso := fresh "Hvdso" in
  destruct H as [Hsp Htext Hlim Hregs Hmem Hrange Hapart Hcode Hvdso];
  change (Z.of_nat (length runtime)) with 340 in *;
  change (2 ^ 64 - 1 - suspend_mask) with 13835058055282163710 in Hlim;
  unfold stack_limit_offset in Hlim;
  change (2 ^ 64) with 18446744073709551616 in *; change (2 ^ 47) with 140737488355328 in *.

(* One instruction; the event reached is kept folded *)
Ltac sx := fetch; red_ins; norm.
Ltac regs_cbn := cbn [rg rget g_rax g_rcx g_rdx g_rbx g_rsp g_rbp g_rsi g_rdi g_r8 g_r9 g_r10 g_r11 g_r12 g_r13 g_r14 g_r15 mm pc cbase zf lt].
Ltac regs_cbn_in := cbn [rg rget g_rax g_rcx g_rdx g_rbx g_rsp g_rbp g_rsi g_rdi g_r8 g_r9 g_r10 g_r11 g_r12 g_r13 g_r14 g_r15 mm pc cbase zf lt] in *.

(* Up to the given instruction, or a jump that isn't decided *)
Ltac run_to n tac :=
  repeat (lazymatch goal with
          | |- comes_to (More (Cpu _ _ _ ?p _ _)) _ => tryif constr_eq p n then fail else (fetch; red_ins; tac; norm; tac)
          end).
(* ... to the return that leaves the code *)
Ltac run_with tac := run_to 132%nat tac.
