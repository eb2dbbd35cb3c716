(* VectorProps.v: what a process finds in the import vector and the stack variables. *)
From Verif Require Import BaseLemmas Vector SandboxSpec SandboxProps AsmProofs GuestLibProofs.
From Verif Require Import Wasm GuestLib.
From Coq Require Import Lia ZArith List Bool.
Import ListNotations.
Local Open Scope Z_scope.

(** ** Words *)

Definition apart (l : list (Z * Z)) : Prop := ForallOrdPairs (fun a b => fst a + 8 <= fst b \/ fst b + 8 <= fst a) l.
Lemma words_out l : forall m a x, Forall (fun w => x < a + fst w \/ a + fst w + 8 <= x) l -> write_words 8 a l m x = m x.
Proof.
  induction l as [|w t IH]; intros m a x H; [reflexivity|]. inversion H as [|? ? H1 H2]; subst.
  unfold write_words in *. cbn [fold_left]. rewrite IH by exact H2. apply sto_other. cbn. lia.
Qed.
Lemma words_in l : forall m a o v x, apart l -> In (o, v) l -> a + o <= x < a + o + 8 -> write_words 8 a l m x = sto 8 (fun _ => 0) (a + o) v x.
Proof.
  induction l as [|w t IH]; intros m a o v x HA HI Hx; [destruct HI|]. inversion HA as [|? ? H1 H2]; subst.
  destruct HI as [->|HI].
  - unfold write_words. cbn [fold_left fst snd]. change (write_words 8 a t (sto 8 m (a + o) v) x = sto 8 (fun _ => 0) (a + o) v x).
    rewrite words_out.
    + unfold sto. replace (a + o <=? x) with true by lia. replace (x <? a + o + Z.of_nat 8) with true by (cbn; lia). reflexivity.
    + eapply Forall_impl; [|exact H1]. cbn [fst]. intros b Hb. lia.
  - unfold write_words. cbn [fold_left]. apply IH; assumption.
Qed.
Lemma words_ld l m a o v : apart l -> In (o, v) l -> 0 <= v < 2 ^ 64 -> ld 8 (write_words 8 a l m) (a + o) = v.
Proof.
  intros HA HI Hv. rewrite (ld_ext 8 (sto 8 (fun _ => 0) (a + o) v)).
  - apply ld_sto_same. exact Hv.
  - intros x Hx. apply words_in; [assumption|assumption|]. change (Z.of_nat 8) with 8 in Hx. lia.
Qed.
Lemma unle_byte l : is_bytes l -> forall j, (j < length l)%nat -> (unle l / 2 ^ (8 * Z.of_nat j)) mod 256 = nth j l 0.
Proof.
  induction l as [|b t IH]; intros HB j Hj; [cbn in Hj; lia|]. inversion HB as [|? ? B1 B2]; subst. cbn [unle]. assert (B : 0 <= b < 256) by exact B1.
  destruct j as [|j]; cbn [nth].
  - change (2 ^ (8 * Z.of_nat 0)) with 1. rewrite Z.div_1_r. rewrite (Z.mul_comm 256), Z.mod_add by lia. apply Z.mod_small. exact B1.
  - replace (8 * Z.of_nat (S j)) with (8 + 8 * Z.of_nat j) by lia. rewrite Z.pow_add_r by lia. change (2 ^ 8) with 256.
    rewrite <- Z.div_div by (try lia; apply Z.pow_pos_nonneg; lia).
    replace ((b + 256 * unle t) / 256) with (unle t) by (rewrite (Z.mul_comm 256), Z.div_add, Z.div_small by lia; lia).
    apply IH; [exact B2|]. cbn in Hj. lia.
Qed.
Lemma unle_range l : is_bytes l -> 0 <= unle l < 256 ^ Z.of_nat (length l).
Proof.
  induction 1 as [|b t B _ IH]; [cbn; lia|]. cbn [unle length]. rewrite Nat2Z.inj_succ, Z.pow_succ_r by lia. assert (0 <= b < 256) by exact B. lia.
Qed.

(** ** Parameters *)

Lemma ok_inj {A} (x y : A) : Ok x = Ok y -> x = y.
Proof. congruence. Qed.
Lemma info_fields P p mask rnd i : page_size P -> valid_program P p -> is_bytes rnd -> start_info P p mask rnd = Ok i ->
  length rnd = rand_len (p_text_addr p) (p_needs_random p) ->
  i_page i = P /\ i_stack_size i = p_stack_size p /\ i_globals_size i = p_globals_size p /\ i_init_memory i = p_memory_size p /\ i_grow_memory i = p_max_memory p /\
  i_monotonic i = p_monotonic p /\ i_time_mask i = mask /\ is_bytes (i_random i) /\ length (i_random i) = 16%nat /\
  i_random i = (if p_needs_random p then skipn (length rnd - 16) rnd else repeat 0 16).
Proof.
  intros HP V Hb H L. destruct (page_div P HP) as (PP & _ & _ & PB).
  destruct V as (V1 & V2 & V3 & V4 & V5 & V6 & V7 & V8 & V9 & V10 & V11 & V12 & VT).
  unfold start_info, getRand in H.
  destruct (RandAddr P MinHeapAddr MaxHeapAddr rnd) as [h| |]; cbn [bind] in H; try discriminate.
  destruct (RandAddr P MinStackAddr MaxStackAddr (skipn 4 rnd)) as [st| |]; cbn [bind] in H; try discriminate.
  assert (S : forall n, is_bytes (skipn n rnd)) by (intros n; unfold is_bytes in *; apply Forall_skipn; exact Hb).
  unfold rand_len in L.
  assert (Z16 : is_bytes (repeat 0 16)) by (repeat constructor; lia).
  destruct (p_text_addr p =? 0).
  - destruct (RandAddr P MinTextAddr MaxTextAddr (skipn 4 (skipn 4 rnd))) as [t| |]; cbn [bind] in H; try discriminate.
    rewrite !skipn_skipn in H. cbn [Nat.add] in H.
    apply ok_inj in H. subst i. cbn [i_page i_stack_size i_globals_size i_init_memory i_grow_memory i_monotonic i_time_mask i_random].
    unfold u32. rewrite !Z.mod_small by lia.
    destruct (p_needs_random p); rewrite ?L; cbn [Nat.sub Nat.add].
    + rewrite firstn_all2 by (rewrite skipn_length; lia). rewrite skipn_length, L. repeat split; auto.
    + repeat split; auto.
  - cbn [bind] in H. rewrite !skipn_skipn in H. cbn [Nat.add] in H. apply ok_inj in H. subst i. cbn [i_page i_stack_size i_globals_size i_init_memory i_grow_memory i_monotonic i_time_mask i_random].
    unfold u32. rewrite !Z.mod_small by lia.
    destruct (p_needs_random p); rewrite ?L; cbn [Nat.sub Nat.add].
    + rewrite firstn_all2 by (rewrite skipn_length; lia). rewrite skipn_length, L. repeat split; auto.
    + repeat split; auto.
Qed.

Lemma vector_apart i debug clock base : apart (vector_words i debug clock base).
Proof. unfold vector_words, apart. repeat (apply FOP_cons; [repeat (apply Forall_cons; [cbn [fst]; lia|]); apply Forall_nil|]). apply FOP_nil. Qed.
Lemma vector_within i debug clock base : Forall (fun w => -144 <= fst w <= -8) (vector_words i debug clock base).
Proof. unfold vector_words. repeat (apply Forall_cons; [cbn [fst]; lia|]). apply Forall_nil. Qed.
Lemma loaded_range i debug clock base m : (forall a, 0 <= m a < 256) -> forall a, 0 <= loaded i debug clock base m a < 256.
Proof.
  intros Hm. unfold loaded, write_words.
  assert (H : forall l m, (forall a, 0 <= m a < 256) -> forall a, 0 <= fold_left (fun m w => sto 8 m (i_text i + fst w) (snd w)) l m a < 256).
  { induction l as [|w t IH]; intros m' Hm'; [exact Hm'|]. cbn [fold_left]. apply IH. apply sto_range. exact Hm'. }
  apply H. unfold load_vars. cbv zeta. repeat apply sto_range. exact Hm.
Qed.
(* Where the variables are, the vector isn't *)
Lemma loaded_vars i debug clock base m x : i_text i <= x -> loaded i debug clock base m x = load_vars i m x.
Proof. intros H. unfold loaded. apply words_out. eapply Forall_impl; [|apply vector_within]. cbn. intros w Hw. lia. Qed.
Lemma loaded_word i debug clock base m o v : In (o, v) (vector_words i debug clock base) -> 0 <= v < 2 ^ 64 -> ld 8 (loaded i debug clock base m) (i_text i + o) = v.
Proof. intros. unfold loaded. apply words_ld; [apply vector_apart|assumption|assumption]. Qed.

(** * C110 *)

Section Started.
Variables (P : Z) (p : program) (mask : Z) (rnd : bytes) (i : info) (debug : bool) (clock base : Z) (m : Z -> Z).
Hypothesis HP : page_size P.
Hypothesis HV : valid_program P p.
Hypothesis HB : is_bytes rnd.
Hypothesis HS : start_info P p mask rnd = Ok i.
Hypothesis HL : length rnd = rand_len (p_text_addr p) (p_needs_random p).
Hypothesis HM : 0 <= mask < 2 ^ 32.
Hypothesis HC : 0 <= clock < 2 ^ 64.
Hypothesis HT : 0 <= base < 2 ^ 64.

Lemma func_addr_range label : (label <= 340)%nat -> 0 <= func_addr i label < 2 ^ 64.
Proof.
  intros Hl. destruct (start_addrs _ _ _ _ _ HP HV HB HS) as (AT & _). destruct (info_fields _ _ _ _ _ HP HV HB HS HL) as (F1 & _).
  destruct (page_div P HP) as (PP & _ & _ & PB). unfold func_addr, runtime_base. rewrite F1. unfold MinTextAddr, MaxTextAddr in *. lia.
Qed.

Lemma functions_at_slots f : f <> RtNop ->
  called (loaded i debug clock base m) (i_text i) f = func_addr i (match f with RtDebug => if debug then L_rt_debug else L_rt_nop | _ => rt_label f end).
Proof.
  intros Hf. unfold called. replace (8 * rt_slot f) with (rt_slot f * 8) by lia.
  apply loaded_word; [|apply func_addr_range; destruct f, debug; cbn; lia].
  unfold vector_words. destruct f; cbn [rt_slot rt_label]; try congruence; cbn [In];
    repeat match goal with |- ?x = ?y \/ _ => first [left; reflexivity | right] end.
Qed.

Lemma values_found :
  let m' := loaded i debug clock base m in
  v_clock_gettime m' (i_text i) = clock /\ v_time_base m' (i_text i) = base /\ v_time_mask m' (i_text i) = mask /\
  (forall k, (k < 16)%nat -> v_random m' (i_text i) (Z.of_nat k) = nth k (i_random i) 0) /\
  v_grow_limit m' (i_text i) = p_max_memory p / 65536 /\ v_memory m' (i_text i) = i_heap i + p_globals_size p /\
  s_unused m' (i_stack i) = 0 /\ s_pages m' (i_stack i) * 65536 = p_memory_size p /\ s_monotonic m' (i_stack i) = p_monotonic p /\
  s_random_avail m' (i_stack i) = 16 /\ s_suspend m' (i_stack i) = 0 /\
  (forall a, ~ (i_text i - 144 <= a < i_text i) -> ~ (i_stack i <= a < i_stack i + 24) -> m' a = m a).
Proof.
  cbv zeta. destruct (start_addrs _ _ _ _ _ HP HV HB HS) as (AT & AH & AS & DT & DH & DS).
  destruct (info_fields _ _ _ _ _ HP HV HB HS HL) as (F1 & F2 & F3 & F4 & F5 & F6 & F7 & F8 & F9 & F10).
  destruct HV as (V1 & V2 & V3 & V4 & V5 & V6 & V7 & V8 & V9 & V10 & V11 & V12 & VT).
  destruct (page_div P HP) as (PP & _ & _ & PB).
  assert (TS : i_text i <= i_stack i) by (unfold MinStackAddr, MaxStackAddr, MinTextAddr, MaxTextAddr in *; lia).
  assert (MG : 0 <= p_max_memory p / 65536 < 2 ^ 32) by (split; [apply Z.div_pos; lia|apply Z.div_lt_upper_bound; lia]).
  assert (MP : 0 <= p_memory_size p / 65536 < 2 ^ 32) by (split; [apply Z.div_pos; lia|apply Z.div_lt_upper_bound; lia]).
  assert (RB : forall n, is_bytes (firstn n (i_random i)) /\ is_bytes (skipn n (i_random i))).
  { intros n. unfold is_bytes in *. split; [|apply Forall_skipn; exact F8]. apply Forall_forall. intros x Hx.
    apply (proj1 (Forall_forall _ _) F8). apply (firstn_skipn n) in F9 || idtac. rewrite <- (firstn_skipn n (i_random i)). apply in_or_app. left. exact Hx. }
  assert (L1 : length (firstn 8 (i_random i)) = 8%nat) by (rewrite firstn_length, F9; reflexivity).
  assert (L2 : length (skipn 8 (i_random i)) = 8%nat) by (rewrite skipn_length, F9; reflexivity).
  assert (VS : forall n x, i_text i <= x -> ld n (loaded i debug clock base m) x = ld n (load_vars i m) x).
  { intros n x Hx. apply ld_ext. intros y Hy. apply loaded_vars. lia. }
  assert (IN : forall w n, nth_error (vector_words i debug clock base) n = Some w -> In w (vector_words i debug clock base)).
  { intros w n. apply nth_error_In. }
  repeat apply conj.
  - unfold v_clock_gettime. change (i_text i - 88) with (i_text i + -11 * 8). apply loaded_word; [apply (IN _ 7%nat); reflexivity|exact HC].
  - unfold v_time_base. change (i_text i - 80) with (i_text i + -10 * 8). apply loaded_word; [apply (IN _ 8%nat); reflexivity|exact HT].
  - unfold v_time_mask. rewrite (ld_ext 4 (sto 8 (fun _ => 0) (i_text i + -9 * 8) mask)).
    + rewrite ld_sto_gen by lia. replace (8 * (i_text i - 72 - (i_text i + -9 * 8))) with 0 by lia. change (2 ^ 0) with 1. rewrite Z.div_1_r.
      apply Z.mod_small. exact HM.
    + intros x Hx. unfold loaded. apply words_in; [apply vector_apart| |lia]. rewrite <- F7 at 1. apply (IN _ 9%nat). rewrite F7 at 1. cbn [nth_error vector_words]. rewrite F7. reflexivity.
  - intros k Hk. unfold v_random. destruct (Nat.lt_ge_cases k 8) as [K|K].
    + unfold loaded. rewrite (words_in _ _ _ (-8 * 8) (unle (firstn 8 (i_random i))));
        [|apply vector_apart|apply (IN _ 10%nat); reflexivity|lia].
      unfold sto. replace (i_text i + -8 * 8 <=? i_text i - 64 + Z.of_nat k) with true by lia.
      replace (i_text i - 64 + Z.of_nat k <? i_text i + -8 * 8 + Z.of_nat 8) with true by lia. cbn [andb].
      replace (i_text i - 64 + Z.of_nat k - (i_text i + -8 * 8)) with (Z.of_nat k) by lia.
      rewrite unle_byte; [|apply RB|rewrite L1; exact K]. rewrite <- (firstn_skipn 8 (i_random i)) at 2. rewrite app_nth1 by (rewrite L1; exact K). reflexivity.
    + unfold loaded. rewrite (words_in _ _ _ (-7 * 8) (unle (skipn 8 (i_random i))));
        [|apply vector_apart|apply (IN _ 11%nat); reflexivity|lia].
      unfold sto. replace (i_text i + -7 * 8 <=? i_text i - 64 + Z.of_nat k) with true by lia.
      replace (i_text i - 64 + Z.of_nat k <? i_text i + -7 * 8 + Z.of_nat 8) with true by lia. cbn [andb].
      replace (i_text i - 64 + Z.of_nat k - (i_text i + -7 * 8)) with (Z.of_nat (k - 8)) by lia.
      rewrite unle_byte; [|apply RB|rewrite L2; lia]. rewrite <- (firstn_skipn 8 (i_random i)) at 2. rewrite app_nth2 by (rewrite L1; lia). rewrite L1. reflexivity.
  - unfold v_grow_limit. change (i_text i - 40) with (i_text i + -5 * 8). rewrite <- F5. rewrite <- F5 in MG. apply loaded_word; [apply (IN _ 13%nat); reflexivity|lia].
  - unfold v_memory. change (i_text i - 32) with (i_text i + -4 * 8). rewrite <- F3. change (i_heap i + i_globals_size i) with (memory_addr i).
    apply loaded_word; [apply (IN _ 14%nat); reflexivity|]. unfold memory_addr. rewrite F3. unfold MinHeapAddr, MaxHeapAddr in *. lia.
  - unfold s_unused. rewrite VS by lia. unfold load_vars. cbv zeta. rewrite !ld_sto_other by lia. apply ld_sto_same4. lia.
  - unfold s_pages. rewrite VS by lia. unfold load_vars. cbv zeta. rewrite 3 ld_sto_other by lia. rewrite F4, ld_sto_same4 by lia.
    destruct V7 as [q ->]. rewrite Z.div_mul by lia. reflexivity.
  - unfold s_monotonic. rewrite VS by lia. unfold load_vars. cbv zeta. rewrite 2 ld_sto_other by lia. rewrite F6. apply ld_sto_same8. exact V12.
  - unfold s_random_avail. rewrite VS by lia. unfold load_vars. cbv zeta. rewrite 1 ld_sto_other by lia. apply ld_sto_same4. lia.
  - unfold s_suspend. rewrite VS by lia. unfold load_vars. cbv zeta. apply ld_sto_same4. lia.
  - intros a A1 A2. unfold loaded. rewrite words_out by (eapply Forall_impl; [|apply vector_within]; cbn; intros w Hw; lia).
    unfold load_vars. cbv zeta. rewrite !sto_other by lia. reflexivity.
Qed.
End Started.

(* Whatever the program and the random numbers: the slots that the library's imports are bound to hold the addresses of the functions (with
   debugging off, rt_debug's holds the one that does nothing).  Of rt_nop see below. *)
Theorem vector_functions_partial : forall P p mask rnd i debug clock base m f,
  page_size P -> valid_program P p -> is_bytes rnd -> start_info P p mask rnd = Ok i -> length rnd = rand_len (p_text_addr p) (p_needs_random p) ->
  f <> RtNop ->
  called (loaded i debug clock base m) (i_text i) f =
    (i_text i - P) + Z.of_nat (match f with RtDebug => if debug then L_rt_debug else L_rt_nop | _ => rt_label f end).
Proof.
  intros P p mask rnd i debug clock base m f HP HV HB HS HL Hf. destruct (info_fields _ _ _ _ _ HP HV HB HS HL) as (F1 & _).
  rewrite (functions_at_slots P p mask rnd i debug clock base m HP HV HB HS HL f Hf). unfold func_addr, runtime_base. rewrite F1. reflexivity.
Qed.
Print Assumptions vector_functions_partial.

(* The library's nop is bound to the slot of the growth limit: in no process does it hold the address of rt_nop: a call would go to
   an address in the first 64 KB, where nothing is mapped. *)
Theorem vector_nop_refuted : forall P p mask rnd i debug clock base m,
  page_size P -> valid_program P p -> is_bytes rnd -> start_info P p mask rnd = Ok i -> length rnd = rand_len (p_text_addr p) (p_needs_random p) ->
  0 <= mask < 2 ^ 32 -> 0 <= clock < 2 ^ 64 -> 0 <= base < 2 ^ 64 ->
  let target := called (loaded i debug clock base m) (i_text i) RtNop in
  target = p_max_memory p / 65536 /\ target <> (i_text i - P) + Z.of_nat L_rt_nop /\ ~ user_address target /\
  (forall mp a, In mp (loader_mappings i) -> occupies P mp a -> a <> target).
Proof.
  intros P p mask rnd i debug clock base m HP HV HB HS HL HM HC HT.
  destruct (values_found P p mask rnd i debug clock base m HP HV HB HS HL HM HC HT) as (_ & _ & _ & _ & G & _).
  destruct (start_addrs _ _ _ _ _ HP HV HB HS) as (AT & _). destruct (page_div P HP) as (PP & _ & _ & PB).
  destruct (layout_disjoint P p mask rnd i HP HV HB HS) as (_ & U & _).
  assert (R : 0 <= p_max_memory p / 65536 < 65536).
  { destruct HV as (_ & _ & _ & _ & _ & _ & _ & V8 & V9 & _). split; [apply Z.div_pos; lia|apply Z.div_lt_upper_bound; lia]. }
  cbv zeta. unfold called. change (i_text i + 8 * rt_slot RtNop) with (i_text i - 40). unfold v_grow_limit in G. rewrite G.
  split; [reflexivity|]. unfold MinTextAddr, user_address in *. split; [lia|]. split; [lia|].
  intros mp a I O E. specialize (U mp a I O). lia.
Qed.
Print Assumptions vector_nop_refuted.

(** ** nop is not called *)

Definition is_reserved (l : list ins) : bool := match l with [BrIf O (Const 1); Call0 RtNop] => true | _ => false end.
Fixpoint cleared (x : ins) : ins :=
  match x with
  | Block l => if is_reserved l then Block [] else Block (map cleared l)
  | Loop l => Loop (map cleared l)
  | If c t e => If (cleared c) (map cleared t) (map cleared e)
  | Set_ n a => Set_ n (cleared a) | Eqz a => Eqz (cleared a) | Wrap a => Wrap (cleared a) | Load n o a => Load n o (cleared a)
  | BrIf n a => BrIf n (cleared a) | Return a => Return (cleared a) | Drop a => Drop (cleared a)
  | Bin o a b => Bin o (cleared a) (cleared b) | Store n o a b => Store n o (cleared a) (cleared b)
  | Call1 f a => Call1 f (cleared a) | Call2 f a b => Call2 f (cleared a) (cleared b)
  | x => x
  end.
Definition eqv (x y : ins) : Prop := forall k s, eval k x s = eval k y s.
Lemma exec_eqv l l' : Forall2 eqv l l' -> forall k s, exec (eval k) l s = exec (eval k) l' s.
Proof.
  induction 1 as [|x y t t' H HT IH]; intros k s; [reflexivity|].
  assert (E : forall a b t, exec (eval k) (a :: b :: t) s = match eval k a s with (s', Next _) => exec (eval k) (b :: t) s' | r => r end) by reflexivity.
  inversion HT as [|a b u u' Ha Hu]; subst.
  - cbn [exec]. apply H.
  - rewrite !E, H. destruct (eval k y s) as [s' []]; auto.
Qed.
Lemma loop_eqv l l' : Forall2 eqv l l' -> eqv (Loop l) (Loop l').
Proof.
  intros H k. induction k as [|k IH]; intros s; rewrite !eval_Loop, (exec_eqv _ _ H).
  - reflexivity.
  - destruct (exec _ l' s) as [s' []]; try reflexivity. destruct n; [apply IH|reflexivity].
Qed.
Lemma andv_ext r r' (f g : Z -> st -> st * out) : r = r' -> (forall x s, f x s = g x s) -> andv r f = andv r' g.
Proof. intros -> H. unfold andv. destruct r' as [s o]. destruct o as [[]| | | | | |]; auto. Qed.
Lemma is_reserved_spec l : is_reserved l = true -> l = [BrIf O (Const 1); Call0 RtNop].
Proof.
  unfold is_reserved. intros H.
  repeat match type of H with context [match ?x with _ => _ end] => is_var x; destruct x; try discriminate H end. reflexivity.
Qed.
Fixpoint cleared_eqv (x : ins) {struct x} : eqv (cleared x) x.
Proof.
  pose (all := fix all (l : list ins) : Forall2 eqv (map cleared l) l :=
    match l as l return Forall2 eqv (map cleared l) l with [] => Forall2_nil _ | y :: t => Forall2_cons _ _ (cleared_eqv y) (all t) end).
  destruct x; cbn [cleared]; try (intros k s; reflexivity).
  - pose proof (cleared_eqv x0) as E. intros k s. rewrite !eval_Set. apply andv_ext; [apply E|reflexivity].
  - pose proof (cleared_eqv x1) as E1. pose proof (cleared_eqv x2) as E2. intros k s. rewrite !eval_Bin. apply andv_ext; [apply E1|]. intros. apply andv_ext; [apply E2|reflexivity].
  - pose proof (cleared_eqv x) as E. intros k s. rewrite !eval_Eqz. apply andv_ext; [apply E|reflexivity].
  - pose proof (cleared_eqv x) as E. intros k s. rewrite !eval_Wrap. apply andv_ext; [apply E|reflexivity].
  - pose proof (cleared_eqv x) as E. intros k s. rewrite !eval_Load. apply andv_ext; [apply E|reflexivity].
  - pose proof (cleared_eqv x1) as E1. pose proof (cleared_eqv x2) as E2. intros k s. rewrite !eval_Store. apply andv_ext; [apply E1|]. intros. apply andv_ext; [apply E2|reflexivity].
  - pose proof (cleared_eqv x) as E. intros k s. rewrite !eval_Call1. apply andv_ext; [apply E|reflexivity].
  - pose proof (cleared_eqv x1) as E1. pose proof (cleared_eqv x2) as E2. intros k s. rewrite !eval_Call2. apply andv_ext; [apply E1|]. intros. apply andv_ext; [apply E2|reflexivity].
  - pose proof (all b) as E. clear all cleared_eqv. intros k s. destruct (is_reserved b) eqn:R.
    + apply is_reserved_spec in R. subst b. rewrite eval_reserved. rewrite eval_Block. reflexivity.
    + rewrite !eval_Block. rewrite (exec_eqv _ _ E). reflexivity.
  - pose proof (all b) as E. clear all cleared_eqv. apply loop_eqv. exact E.
  - pose proof (cleared_eqv x) as E. pose proof (all t) as E1. pose proof (all e) as E2. clear all cleared_eqv.
    intros k s. rewrite !eval_If. apply andv_ext; [apply E|]. intros v s'. rewrite (exec_eqv _ _ E1), (exec_eqv _ _ E2). reflexivity.
  - pose proof (cleared_eqv x) as E. intros k s. rewrite !eval_BrIf. apply andv_ext; [apply E|reflexivity].
  - pose proof (cleared_eqv x) as E. intros k s. rewrite !eval_Return. apply andv_ext; [apply E|reflexivity].
  - pose proof (cleared_eqv x) as E. intros k s. rewrite !eval_Drop. apply andv_ext; [apply E|reflexivity].
Qed.

(* But no program comes to call it: every function of the library, with any arguments in any state, does what some code that
   doesn't call nop does. *)
Theorem nop_never_called : forall f, In f library_functions -> exists g,
  existsb calls_nop (f_body g) = false /\ f_params g = f_params f /\ f_locals g = f_locals f /\
  forall k args s, invoke k f args s = invoke k g args s.
Proof.
  intros f Hf. exists (Func (f_params f) (f_locals f) (map cleared (f_body f))). cbn [f_body f_params f_locals].
  split; [|split; [reflexivity|split; [reflexivity|]]].
  - assert (C : forallb (fun f => negb (existsb calls_nop (map cleared (f_body f)))) library_functions = true) by (vm_compute; reflexivity).
    rewrite forallb_forall in C. specialize (C f Hf). destruct (existsb _ _); [discriminate|reflexivity].
  - intros k args s. unfold invoke. cbn [f_body f_locals].
    rewrite (exec_eqv (map cleared (f_body f)) (f_body f)); [reflexivity|].
    induction (f_body f); constructor; [apply cleared_eqv|assumption].
Qed.
Print Assumptions nop_never_called.
Example nop_mentioned : length library_functions = 38%nat /\ existsb calls_nop (f_body lib_fd_read) = true.
Proof. split; reflexivity. Qed.

(** ** Ready *)

(* The loader leaves what Start was told, where the runtime looks for it: clock, resolution, growth limit, place and size of memory,
   the monotonic time, and the 16 random bytes that Start drew, none of them used, and no suspension; the rest of
   memory isn't changed. *)
Theorem loaded_values : forall P p mask rnd i debug clock base m,
  page_size P -> valid_program P p -> is_bytes rnd -> start_info P p mask rnd = Ok i -> length rnd = rand_len (p_text_addr p) (p_needs_random p) ->
  0 <= mask < 2 ^ 32 -> 0 <= clock < 2 ^ 64 -> 0 <= base < 2 ^ 64 ->
  let m' := loaded i debug clock base m in let text := i_text i in let vars := i_stack i in
  v_clock_gettime m' text = clock /\ v_time_base m' text = base /\ v_time_mask m' text = mask /\
  v_grow_limit m' text = p_max_memory p / 65536 /\ v_memory m' text = i_heap i + p_globals_size p /\
  s_pages m' vars * 65536 = p_memory_size p /\ s_monotonic m' vars = p_monotonic p /\ s_unused m' vars = 0 /\ s_suspend m' vars = 0 /\
  random_left m' text (s_random_avail m' vars) = rev (if p_needs_random p then skipn (length rnd - 16) rnd else repeat 0 16) /\
  (forall a, ~ (text - 144 <= a < text) -> ~ (vars <= a < vars + 24) -> m' a = m a).
Proof.
  intros P p mask rnd i debug clock base m HP HV HB HS HL HM HC HT. cbv zeta.
  destruct (values_found P p mask rnd i debug clock base m HP HV HB HS HL HM HC HT) as (A1 & A2 & A3 & A4 & A5 & A6 & A7 & A8 & A9 & A10 & A11 & A12).
  destruct (info_fields _ _ _ _ _ HP HV HB HS HL) as (_ & _ & _ & _ & _ & _ & _ & _ & F9 & F10).
  do 9 (split; [assumption|]). split; [|exact A12].
  rewrite A10. transitivity (rev (i_random i)); [|f_equal; exact F10]. unfold random_left. change (Z.to_nat 16) with 16%nat. rewrite map_rev. f_equal.
  apply (nth_ext _ _ 0 0); [rewrite map_length, seq_length, F9; reflexivity|].
  intros n Hn. rewrite map_length, seq_length in Hn.
  rewrite (nth_indep _ 0 (v_random (loaded i debug clock base m) (i_text i) (Z.of_nat 0))) by (rewrite map_length, seq_length; exact Hn).
  rewrite (map_nth (fun i0 => v_random (loaded i debug clock base m) (i_text i) (Z.of_nat i0))), seq_nth by exact Hn. apply A4. exact Hn.
Qed.
Print Assumptions loaded_values.

(* And whenever the program calls an imported function, the process is as the theorems about the runtime's functions suppose: as
   long as the vector is as it was (it's read-only), the registers that the generated code reserves have their values, and
   the stack pointer is within the stack, above the reserve. *)
Theorem loaded_process_ready : forall P p mask rnd i debug clock base m s sp,
  page_size P -> valid_program P p -> is_bytes rnd -> start_info P p mask rnd = Ok i -> length rnd = rand_len (p_text_addr p) (p_needs_random p) ->
  0 <= mask < 2 ^ 32 -> 0 <= clock < 2 ^ 64 -> 0 <= base < 2 ^ 64 -> ~ (i_text i - P <= clock < i_text i) ->
  (forall a, i_text i - 144 <= a < i_text i -> mm s a = loaded i debug clock base m a) ->
  (forall a, 0 <= mm s a < 256) -> (forall r, 0 <= rget r (rg s) < 2 ^ 64) -> cbase s = i_text i - P ->
  rget rsp (rg s) = sp -> i_stack i + 512 <= sp -> sp + 24 <= i_stack i + i_stack_size i ->
  rget r15 (rg s) = i_text i ->
  rget rbx (rg s) = i_stack i + stack_limit_offset \/ rget rbx (rg s) = Z.lor (i_stack i + stack_limit_offset) suspend_mask ->
  imported s sp (i_text i) (i_stack i) /\ memory_apart s sp (i_text i) (i_stack i).
Proof.
  intros P p mask rnd i debug clock base m s sp HP HV HB HS HL HM HC HT HD Hvec Hmem Hreg Hbase Hsp S1 S2 Hr15 Hrbx.
  destruct (values_found P p mask rnd i debug clock base m HP HV HB HS HL HM HC HT) as (A1 & _ & _ & _ & _ & A6 & _).
  destruct (start_addrs _ _ _ _ _ HP HV HB HS) as (AT & AH & AS & DT & DH & DS).
  destruct (info_fields _ _ _ _ _ HP HV HB HS HL) as (F1 & F2 & _).
  assert (PB : 4096 <= P <= 65536).
  { destruct HP as (k & Hk & ->). split; [apply (Z.pow_le_mono_r 2 12)|apply (Z.pow_le_mono_r 2 k 16)]; lia. }
  destruct (page_div P HP) as (PP & P64 & _ & _).
  destruct HV as (V1 & V2 & V3 & V4 & V5 & V6 & V7 & V8 & V9 & V10 & V11 & V12 & VT).
  unfold MinTextAddr, MaxTextAddr, MinHeapAddr, MaxHeapAddr, MinStackAddr, MaxStackAddr in *.
  assert (EV : ld 8 (mm s) (i_text i - 88) = clock).
  { rewrite <- A1. unfold v_clock_gettime. apply ld_ext. intros x Hx. apply Hvec. lia. }
  assert (EM : v_memory (mm s) (i_text i) = i_heap i + p_globals_size p).
  { rewrite <- A6. unfold v_memory. apply ld_ext. intros x Hx. apply Hvec. lia. }
  assert (LIM : Z.land (rget rbx (rg s)) (2 ^ 64 - 1 - suspend_mask) = i_stack i + stack_limit_offset).
  { assert (B : Z.land (i_stack i + stack_limit_offset) (2 ^ 64 - 1 - suspend_mask) = i_stack i + stack_limit_offset).
    { assert (EVN : exists h, i_stack i + stack_limit_offset = 2 * h /\ 0 <= h < 2 ^ 61).
      { destruct DS as [q Eq]. destruct HP as (k & Hk & EP). exists (q * 2 ^ (k - 1) + 4992).
        assert (E2 : 2 * 2 ^ (k - 1) = P) by (rewrite EP; rewrite <- Z.pow_succ_r by lia; f_equal; lia).
        assert (i_stack i = 2 * (q * 2 ^ (k - 1))) by (rewrite Eq, <- E2; ring).
        unfold stack_limit_offset. lia. }
      destruct EVN as (h & -> & Hh). apply Z.bits_inj'. intros n Hn. rewrite Z.land_spec.
      destruct (Z.eq_dec n 0) as [->|N0]; [rewrite Z.testbit_even_0; reflexivity|].
      replace n with (Z.succ (n - 1)) by lia. rewrite Z.testbit_even_succ by lia.
      destruct (Z.lt_ge_cases (n - 1) 61) as [L|L].
      - change (2 ^ 64 - 1 - suspend_mask) with (2 * (Z.lor (Z.ones 61) (Z.shiftl 1 62))).
        rewrite Z.testbit_even_succ by lia. rewrite Z.lor_spec, Z.ones_spec_low by lia. cbn [orb]. apply andb_true_r.
      - replace (Z.testbit h (n - 1)) with false; [reflexivity|]. symmetry. destruct (Z.eq_dec h 0) as [->|Hz]; [apply Z.bits_0|].
        apply Z.bits_above_log2; [lia|]. apply (Z.lt_le_trans _ 61); [|exact L]. apply Z.log2_lt_pow2; lia. }
    destruct Hrbx as [-> | ->]; [exact B|]. rewrite Z.land_lor_distr_l, B. change (Z.land suspend_mask _) with 0. apply Z.lor_0_r. }
  split.
  - constructor; try assumption.
    + lia.
    + lia.
    + rewrite Hbase. change (Z.of_nat (length runtime)) with 340. lia.
    + rewrite Hbase, EV. change (Z.of_nat (length runtime)) with 340. lia.
  - unfold memory_apart. cbv zeta. rewrite EM. lia.
Qed.
Print Assumptions loaded_process_ready.

(* A started program, at its first call *)
Example ready_sample : exists i, start_info 4096 sample_program 0xff000000 (repeat 255 28) = Ok i /\
  length (repeat 255 28) = rand_len (p_text_addr sample_program) (p_needs_random sample_program) /\
  ~ (i_text i - 4096 <= 0x7fff12345678 < i_text i) /\ i_stack i + 512 <= i_stack i + 65000 /\ i_stack i + 65000 + 24 <= i_stack i + i_stack_size i.
Proof. eexists. split; [vm_compute; reflexivity|]. vm_compute. repeat split; try congruence. intros [A B]. congruence. Qed.
