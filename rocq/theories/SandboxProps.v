(* SandboxProps.v: C82-C86. *)
From Verif Require Import SandboxSpec BaseLemmas.

Lemma rand_range : forall P lo hi b a, page_size P -> is_bytes b ->
  (2 ^ 32 | lo) -> (2 ^ 32 | hi) -> 0 <= lo < hi ->
  RandAddr P lo hi b = Ok a -> lo <= a <= hi - P /\ (P | a).
Proof.
  intros P lo hi b a (k & Hk & HP) Hb [l Hl] [h Hh] Hr H.
  assert (HPpos : 0 < P) by (subst P; apply Z.pow_pos_nonneg; lia).
  assert (E32 : 2 ^ 32 = 2 ^ (32 - k) * P) by (subst P; rewrite <- Z.pow_add_r by lia; f_equal; lia).
  assert (HQ : 0 < 2 ^ (32 - k)) by (apply Z.pow_pos_nonneg; lia).
  set (Q := 2 ^ (32 - k)) in *.
  assert (El : lo = (l * Q) * P) by (rewrite Hl, E32; ring).
  assert (Eh : hi = (h * Q) * P) by (rewrite Hh, E32; ring).
  unfold RandAddr in H.
  rewrite El, Eh in H. rewrite !Z.div_mul in H by lia.
  destruct (get_le 0 4 b) as [r| |]; cbn [bind] in H; try discriminate.
  injection H as <-.
  assert (D : 0 < h * Q - l * Q) by nia.
  pose proof (Z.mod_pos_bound r (h * Q - l * Q) D) as Hm.
  set (m := r mod (h * Q - l * Q)) in *.
  rewrite El, Eh.
  split; [split; nia|].
  exists (l * Q + m); reflexivity.
Qed.

(** C82 *)

Lemma page_div : forall P, page_size P -> 0 < P /\ (P | 65536) /\ (P | 2 ^ 32) /\ P <= 65536.
Proof.
  intros P (k & Hk & ->).
  assert (0 < 2 ^ k) by (apply Z.pow_pos_nonneg; lia).
  assert (2 ^ k <= 2 ^ 16) by (apply Z.pow_le_mono_r; lia).
  repeat split; auto.
  - exists (2 ^ (16 - k)). rewrite <- Z.pow_add_r by lia. replace (16 - k + k) with 16 by lia. reflexivity.
  - exists (2 ^ (32 - k)). rewrite <- Z.pow_add_r by lia. replace (32 - k + k) with 32 by lia. reflexivity.
Qed.

Lemma round_up_le : forall P x n, 0 < P -> (P | n) -> x <= n -> (x + P - 1) / P * P <= n.
Proof.
  intros P x n HP [q ->] H.
  assert ((x + P - 1) / P < q + 1) by (apply Z.div_lt_upper_bound; nia).
  nia.
Qed.
Lemma round_up_mult : forall P x, 0 < P -> (P | x) -> (x + P - 1) / P * P = x.
Proof.
  intros P x HP [q ->]. replace (q * P + P - 1) with (P - 1 + q * P) by ring.
  rewrite Z.div_add by lia. rewrite Z.div_small by lia. ring.
Qed.

(* Everything that is known of the addresses. *)
Lemma start_addrs : forall P p mask rnd i, page_size P -> valid_program P p -> is_bytes rnd ->
  start_info P p mask rnd = Ok i ->
  MinTextAddr <= i_text i <= MaxTextAddr - P /\ MinHeapAddr <= i_heap i <= MaxHeapAddr - P /\
  MinStackAddr <= i_stack i <= MaxStackAddr - P /\ (P | i_text i) /\ (P | i_heap i) /\ (P | i_stack i).
Proof.
  intros P p mask rnd i HP V Hb H.
  destruct V as (V1 & V2 & V3 & V4 & V5 & V6 & V7 & V8 & V9 & V10 & V11 & V12 & VT).
  unfold start_info, getRand in H.
  destruct (RandAddr P MinHeapAddr MaxHeapAddr rnd) as [h| |] eqn:EH; cbn [bind] in H; try discriminate.
  destruct (RandAddr P MinStackAddr MaxStackAddr (skipn 4 rnd)) as [s| |] eqn:ES; cbn [bind] in H; try discriminate.
  assert (Hb4 : is_bytes (skipn 4 rnd)) by (unfold is_bytes in *; apply Forall_skipn; auto).
  assert (Hb8 : is_bytes (skipn 4 (skipn 4 rnd))) by (unfold is_bytes in *; apply Forall_skipn; auto).
  apply rand_range in EH; auto; try (unfold MinHeapAddr, MaxHeapAddr; lia);
    try (exists 0x2aa9; reflexivity); try (exists 0x554b; reflexivity).
  apply rand_range in ES; auto; try (unfold MinStackAddr, MaxStackAddr; lia);
    try (exists 0x554d; reflexivity); try (exists 0x7ff0; reflexivity).
  assert (HT : forall b t, is_bytes b -> RandAddr P MinTextAddr MaxTextAddr b = Ok t ->
     MinTextAddr <= t <= MaxTextAddr - P /\ (P | t)).
  { intros b t Hbb E. apply rand_range in E; auto; try (unfold MinTextAddr, MaxTextAddr; lia).
    - exists 4; reflexivity.
    - exists 0x2aa7; reflexivity. }
  destruct (p_text_addr p =? 0) eqn:E0.
  - destruct (RandAddr P MinTextAddr MaxTextAddr (skipn 4 (skipn 4 rnd))) as [t| |] eqn:ET; cbn [bind] in H; try discriminate.
    assert (i = i) by reflexivity.
    injection H as <-. cbn [i_text i_heap i_stack]. apply HT in ET; auto. tauto.
  - cbn [bind] in H. injection H as <-. cbn [i_text i_heap i_stack].
    destruct VT as [VT | (b & Hbb & VT)]; [lia|]. apply HT in VT; auto. tauto.
Qed.

(* For every program and every randomness: the mappings of the process (runtime, program code, stack, globals
   and memory) do not share a page, and all are in the user half of the address space.  And nothing accessible but the
   program's own globals and memory is within 8 GB of the start of its memory, if the globals fit in a page:
   a 32-bit index plus a 32-bit offset cannot leave this window. *)
Theorem layout_disjoint : forall P p mask rnd i, page_size P -> valid_program P p -> is_bytes rnd ->
  start_info P p mask rnd = Ok i ->
  ForallOrdPairs (fun m1 m2 => forall a, ~ (occupies P m1 a /\ occupies P m2 a)) (loader_mappings i) /\
  (forall m a, In m (loader_mappings i) -> occupies P m a -> user_address a) /\
  (p_globals_size p <= P -> forall m a, In m (loader_mappings i) -> occupies P m a ->
     memory_addr i <= a < memory_addr i + 2 ^ 33 ->
     m = Mapping (i_heap i) (i_globals_size i + i_init_memory i) RW \/ m_prot m = NONE).
Proof.
  intros P p mask rnd i HP V Hb H.
  destruct (start_addrs _ _ _ _ _ HP V Hb H) as (AT & AH & AS & DT & DH & DS).
  destruct (page_div P HP) as (PP & P64 & P32 & PB).
  destruct V as (V1 & V2 & V3 & V4 & V5 & V6 & V7 & V8 & V9 & V10 & V11 & V12 & VT).
  assert (F : i_page i = P /\ i_text_size i = p_text_size p /\ i_stack_size i = p_stack_size p /\
     i_globals_size i = p_globals_size p /\ i_init_memory i = p_memory_size p /\ i_grow_memory i = p_max_memory p).
  { unfold start_info in H. destruct (getRand P (p_text_addr p) (p_needs_random p) rnd) as [[[[t h] s] r]| |]; cbn [bind] in H; try discriminate.
    injection H as <-. cbn [i_page i_text_size i_stack_size i_globals_size i_init_memory i_grow_memory].
    unfold u32. repeat split; try (rewrite Z.mod_small by lia; congruence). }
  destruct F as (F1 & F2 & F3 & F4 & F5 & F6).
  assert (PM : (P | p_memory_size p)) by (apply (Z.divide_trans _ _ _ P64 V7)).
  assert (PGM : (P | p_globals_size p + p_memory_size p)) by (apply Z.divide_add_r; auto).
  assert (RT : (p_text_size p + P - 1) / P * P <= 2 ^ 32) by (apply round_up_le; auto; lia).
  assert (RS : (p_stack_size p + P - 1) / P * P <= 2 ^ 32) by (apply round_up_le; auto; lia).
  assert (RP : (P + P - 1) / P * P = P) by (apply round_up_mult; auto; exists 1; ring).
  assert (RG : p_globals_size p <= 2 ^ 32 - P).
  { clear - P32 V6 V5 PP. destruct P32 as [q Eq]. destruct V6 as [g Eg]. rewrite Eg in *. rewrite Eq in *. assert (g < q) by nia. nia. }
  assert (RA : (p_globals_size p + p_memory_size p + P - 1) / P * P = p_globals_size p + p_memory_size p)
    by (apply round_up_mult; auto).
  unfold MinTextAddr, MaxTextAddr, MinHeapAddr, MaxHeapAddr, MinStackAddr, MaxStackAddr in *.
  unfold loader_mappings, memory_addr. rewrite F1, F2, F3, F4, F5, F6.
  assert (O1 : forall a, occupies P (Mapping (i_text i - P) P RX) a -> i_text i - P <= a < i_text i).
  { intros a. unfold occupies; cbn [m_addr m_size]. rewrite RP. lia. }
  assert (O2 : forall a, occupies P (Mapping (i_text i) (p_text_size p) RX) a -> i_text i <= a < i_text i + 2 ^ 32).
  { intros a. unfold occupies; cbn [m_addr m_size]. lia. }
  assert (O3 : forall a, occupies P (Mapping (i_stack i) (p_stack_size p) RW) a -> i_stack i <= a < i_stack i + 2 ^ 32).
  { intros a. unfold occupies; cbn [m_addr m_size]. lia. }
  assert (O4 : forall a, occupies P (Mapping (i_heap i) (p_globals_size p + p_memory_size p) RW) a ->
      i_heap i <= a < i_heap i + p_globals_size p + p_memory_size p).
  { intros a. unfold occupies; cbn [m_addr m_size]. rewrite RA. lia. }
  assert (O5 : forall a, occupies P (Mapping (i_heap i + (p_globals_size p + p_memory_size p))
       (p_globals_size p + p_max_memory p - (p_globals_size p + p_memory_size p)) NONE) a ->
      i_heap i + p_globals_size p + p_memory_size p <= a < i_heap i + p_globals_size p + 2 ^ 32).
  { intros a. unfold occupies; cbn [m_addr m_size].
    pose proof (round_up_le P (p_globals_size p + p_max_memory p - (p_globals_size p + p_memory_size p)) (2 ^ 32 - p_memory_size p) PP
      ltac:(apply Z.divide_sub_r; auto) ltac:(lia)). lia. }
  clear RT RS RP RA H VT Hb.
  split; [|split].
  - destruct (p_globals_size p + p_max_memory p =? 0); cbn [app];
      repeat apply FOP_cons; try apply FOP_nil; repeat apply Forall_cons; try apply Forall_nil;
      intros a [A1 A2];
      first [apply O1 in A1 | apply O2 in A1 | apply O3 in A1 | apply O4 in A1];
      first [apply O2 in A2 | apply O3 in A2 | apply O4 in A2 | apply O5 in A2]; lia.
  - intros m a I O. unfold user_address. apply in_app_or in I.
    destruct I as [I | I].
    + destruct I as [<- | [<- | [<- | []]]]; [apply O1 in O | apply O2 in O | apply O3 in O]; lia.
    + destruct (p_globals_size p + p_max_memory p =? 0); [destruct I|].
      destruct I as [<- | [<- | []]]; [apply O4 in O | apply O5 in O]; lia.
  - intros G m a I O R. apply in_app_or in I.
    destruct I as [I | I].
    + destruct I as [<- | [<- | [<- | []]]]; [apply O1 in O | apply O2 in O | apply O3 in O]; lia.
    + destruct (p_globals_size p + p_max_memory p =? 0); [destruct I|].
      destruct I as [<- | [<- | []]]; [left | right]; reflexivity.
Qed.
Print Assumptions layout_disjoint.

(* Start does not fail or crash when the random source delivers. *)
Theorem layout_total : forall P p mask rnd, page_size P -> valid_program P p -> is_bytes rnd ->
  length rnd = rand_len (p_text_addr p) (p_needs_random p) -> exists i, start_info P p mask rnd = Ok i.
Proof.
  intros P p mask rnd HP V Hb L. unfold start_info, getRand, RandAddr.
  unfold rand_len in L.
  do 8 (destruct rnd as [|? rnd]; [exfalso; destruct (p_text_addr p =? 0), (p_needs_random p); cbn in L; lia|]).
  unfold get_le, slice. cbn [skipn length]. 
  destruct (p_text_addr p =? 0).
  - do 4 (destruct rnd as [|? rnd]; [exfalso; destruct (p_needs_random p); cbn in L; lia|]).
    cbn [length Nat.leb Nat.add bind skipn]. eexists; reflexivity.
  - cbn [length Nat.leb Nat.add bind skipn]. eexists; reflexivity.
Qed.
Print Assumptions layout_total.

Definition sample_program : program :=
  Program 4096 100000 true 0 65536 0 4096 131072 1048576 64 128 5.
Example layout_sample : valid_program 4096 sample_program /\ page_size 4096 /\ p_globals_size sample_program <= 4096 /\
  start_info 4096 sample_program 0xff000000 (repeat 255 28) <> Err /\
  exists i, start_info 4096 sample_program 0xff000000 (repeat 255 28) = Ok i /\ length (loader_mappings i) = 5%nat.
Proof.
  split; [|split; [|split; [|split]]].
  - unfold valid_program; cbn. repeat split; try lia; [exists 1; reflexivity | exists 2; reflexivity].
  - exists 12. split; [lia | reflexivity].
  - cbn; lia.
  - vm_compute. discriminate.
  - eexists. split; [vm_compute; reflexivity | vm_compute; reflexivity].
Qed.

(** C83, C84: the system call filter *)

Definition listed (s : numbers) (c : syscall) : Prop := plain_call s (s_nr c) \/ grow_call s c.

Lemma nr_word : forall c, valid_syscall c -> data_word c 0 = s_nr c.
Proof. intros c (H & _). unfold data_word. cbn. unfold u32. apply Z.mod_small. lia. Qed.

Lemma arg_words : forall c, valid_syscall c ->
  (data_word c 20 = nth 0 (s_args c) 0 / 2 ^ 32) /\ (data_word c 28 = nth 1 (s_args c) 0 / 2 ^ 32) /\
  (data_word c 32 = nth 2 (s_args c) 0 mod 2 ^ 32).
Proof.
  intros c (_ & _ & L & F).
  destruct (s_args c) as [|a0 [|a1 [|a2 [|a3 [|a4 [|a5 [|]]]]]]] eqn:E; try discriminate L.
  unfold data_word; rewrite E; cbn -[Z.div Z.modulo u32 Z.pow].
  change (Z.to_nat ((20 - 16) / 8)) with 0%nat. change (Z.to_nat ((28 - 16) / 8)) with 1%nat.
  change (Z.to_nat ((32 - 16) / 8)) with 2%nat.
  change ((20 - 16) mod 8 =? 0) with false. change ((28 - 16) mod 8 =? 0) with false. change ((32 - 16) mod 8 =? 0) with true.
  cbn [nth]. unfold u32.
  inversion F as [|? ? B0 F1]; subst. inversion F1 as [|? ? B1 F2]; subst.
  repeat split; apply Z.mod_small; split;
    try (apply Z.div_pos; lia); apply Z.div_lt_upper_bound; lia.
Qed.

Lemma high32 : forall a, 0 <= a -> (GATE_MIN_HEAP_HIGH32 <=? a / 2 ^ 32) = (MinHeapAddr <=? a).
Proof.
  intros a H. unfold GATE_MIN_HEAP_HIGH32, MinHeapAddr.
  destruct (0x2aa900000000 <=? a) eqn:E.
  - apply Z.leb_le. apply Z.div_le_lower_bound; lia.
  - apply Z.leb_gt. apply Z.div_lt_upper_bound; lia.
Qed.
Lemma high0 : forall a, 0 <= a -> (a / 2 ^ 32 =? 0) = (a <? 2 ^ 32).
Proof.
  intros a H. destruct (a <? 2 ^ 32) eqn:E.
  - rewrite Z.div_small by lia. reflexivity.
  - apply Z.eqb_neq. assert (1 <= a / 2 ^ 32) by (apply Z.div_le_lower_bound; lia). lia.
Qed.

Lemma run_ld : forall n off t acc c, bpf_run (S n) (LD off :: t) acc c = bpf_run n t (data_word c off) c.
Proof. reflexivity. Qed.
Lemma run_jeq : forall n k jt jf t acc c, bpf_run (S n) (JEQ k jt jf :: t) acc c = bpf_run n (skipn (if acc =? k then jt else jf) t) acc c.
Proof. reflexivity. Qed.
Lemma run_jge : forall n k jt jf t acc c, bpf_run (S n) (JGE k jt jf :: t) acc c = bpf_run n (skipn (if k <=? acc then jt else jf) t) acc c.
Proof. reflexivity. Qed.

(* What the filter does, step by step, for any numbering. *)
Lemma filter_steps : forall s c, valid_syscall c ->
  seccomp (seccomp_filter s) c = Some
   (let nr := s_nr c in
    let plain := existsb (Z.eqb nr) [n_read s; n_write s; n_ppoll s] in
    if plain then ALLOW
    else if nr =? n_grow s then
      if (MinHeapAddr <=? nth 0 (s_args c) 0) && (nth 1 (s_args c) 0 <? 2 ^ 32) && (nth 2 (s_args c) 0 mod 2 ^ 32 =? PROT_RW)
      then ALLOW else KILL
    else if existsb (Z.eqb nr) [n_rt_sigreturn s; n_close s; n_exit_group s] then ALLOW
    else if nr =? PROT_RW then ALLOW else KILL).
Proof.
  intros s c V. pose proof (nr_word c V) as W0. destruct (arg_words c V) as (W1 & W2 & W3).
  assert (N0 : 0 <= nth 0 (s_args c) 0 /\ 0 <= nth 1 (s_args c) 0).
  { destruct V as (_ & _ & L & F). destruct (s_args c) as [|a0 [|a1 l]]; try discriminate L.
    inversion F as [|? ? B0 F1]; subst. inversion F1; subst. cbn; lia. }
  unfold seccomp. change (length (seccomp_filter s)) with 16%nat.
  unfold seccomp_filter, filter_head, filter_mprotect, filter_tail. cbn [app].
  change (16 + 8 * 0 + 4) with 20. change (16 + 8 * 1 + 4) with 28. change (16 + 8 * 2) with 32.
  rewrite run_ld, W0. cbn zeta. cbn [existsb].
  rewrite run_jeq.
  destruct (s_nr c =? n_read s); [reflexivity|].
  cbn [skipn]. rewrite run_jeq. destruct (s_nr c =? n_write s); [reflexivity|].
  cbn [skipn]. rewrite run_jeq. destruct (s_nr c =? n_ppoll s); [reflexivity|].
  cbn [skipn orb]. rewrite run_jeq. destruct (s_nr c =? n_grow s).
  - cbn [skipn]. rewrite run_ld, W1, run_jge, high32 by lia.
    destruct (MinHeapAddr <=? nth 0 (s_args c) 0); [|reflexivity].
    cbn [skipn]. rewrite run_ld, W2, run_jeq, high0 by lia.
    destruct (nth 1 (s_args c) 0 <? 2 ^ 32); [|reflexivity].
    cbn [skipn andb]. rewrite run_ld, W3, run_jeq.
    destruct (nth 2 (s_args c) 0 mod 2 ^ 32 =? PROT_RW); reflexivity.
  - cbn [skipn]. rewrite run_jeq. destruct (s_nr c =? n_rt_sigreturn s); [reflexivity|].
    cbn [skipn]. rewrite run_jeq. destruct (s_nr c =? n_close s); [reflexivity|].
    cbn [skipn]. rewrite run_jeq. destruct (s_nr c =? n_exit_group s); [reflexivity|].
    cbn [skipn orb]. rewrite run_jeq. destruct (s_nr c =? PROT_RW); reflexivity.
Qed.

(* On x86-64 the filter allows exactly the listed calls, and kills the process otherwise. *)
Theorem seccomp_x86_64_exact : forall c, valid_syscall c ->
  (listed x86_64 c -> seccomp (seccomp_filter x86_64) c = Some ALLOW) /\
  (~ listed x86_64 c -> seccomp (seccomp_filter x86_64) c = Some KILL).
Proof.
  intros c V. rewrite filter_steps by exact V. unfold listed, plain_call, grow_call. cbn zeta. cbn [x86_64 n_read n_write n_ppoll n_grow n_rt_sigreturn n_close n_exit_group existsb In].
  unfold PROT_RW.
  destruct (s_nr c =? 0) eqn:E0; [split; [reflexivity | intros N; exfalso; apply N; lia]|].
  destruct (s_nr c =? 1) eqn:E1; [split; [reflexivity | intros N; exfalso; apply N; lia]|].
  destruct (s_nr c =? 271) eqn:E2; [split; [reflexivity | intros N; exfalso; apply N; lia]|].
  cbn [orb].
  destruct (s_nr c =? 10) eqn:E3.
  - destruct (MinHeapAddr <=? nth 0 (s_args c) 0) eqn:A0, (nth 1 (s_args c) 0 <? 2 ^ 32) eqn:A1,
      (nth 2 (s_args c) 0 mod 2 ^ 32 =? 3) eqn:A2; cbn [andb]; split; intros N; try reflexivity; exfalso;
      try (apply N; right; lia); destruct N as [N | N]; lia.
  - destruct (s_nr c =? 15) eqn:E4; [split; [reflexivity | intros N; exfalso; apply N; lia]|].
    destruct (s_nr c =? 3) eqn:E5; [split; [reflexivity | intros N; exfalso; apply N; lia]|].
    destruct (s_nr c =? 231) eqn:E6; [split; [reflexivity | intros N; exfalso; apply N; lia]|].
    cbn [orb]. split; [intros N; exfalso; destruct N as [N | N]; lia | reflexivity].
Qed.
Print Assumptions seccomp_x86_64_exact.

Definition AUDIT_ARCH_X86_64 : Z := 0xc000003e.
Definition AUDIT_ARCH_I386 : Z := 0x40000003.
Definition AUDIT_ARCH_AARCH64 : Z := 0xc00000b7.
Example seccomp_samples :
  let grow := Syscall 10 AUDIT_ARCH_X86_64 0 [0x2aa900010000; 65536; 3; 0; 0; 0] in
  let open_ := Syscall 2 AUDIT_ARCH_X86_64 0 [0; 0; 0; 0; 0; 0] in
  valid_syscall grow /\ listed x86_64 grow /\ seccomp (seccomp_filter x86_64) grow = Some ALLOW /\
  valid_syscall open_ /\ ~ listed x86_64 open_ /\ seccomp (seccomp_filter x86_64) open_ = Some KILL /\
  seccomp (seccomp_filter x86_64) (Syscall 10 AUDIT_ARCH_X86_64 0 [0x2aa900010000; 65536; 7; 0; 0; 0]) = Some KILL.
Proof.
  cbn zeta. unfold valid_syscall, listed, plain_call, grow_call, MinHeapAddr, PROT_RW. cbn [s_nr s_arch s_args nth x86_64 n_read n_write n_ppoll n_grow n_rt_sigreturn n_close n_exit_group].
  unfold AUDIT_ARCH_X86_64. 
  repeat split; try lia; repeat constructor; try lia; try (vm_compute; reflexivity).
  cbn [In]. intros [X | X]; lia.
Qed.

(* On AArch64 one more call is allowed: the last test of a call's number jumps to the comparison of mprotect's
   third argument instead of the kill instruction, and compares the number with PROT_READ|PROT_WRITE.  Number 3
   is io_cancel. *)
Theorem seccomp_aarch64_exact_partial : forall c, valid_syscall c ->
  (listed aarch64 c \/ s_nr c = 3 -> seccomp (seccomp_filter aarch64) c = Some ALLOW) /\
  (~ (listed aarch64 c \/ s_nr c = 3) -> seccomp (seccomp_filter aarch64) c = Some KILL).
Proof.
  intros c V. rewrite filter_steps by exact V. unfold listed, plain_call, grow_call. cbn zeta. cbn [aarch64 n_read n_write n_ppoll n_grow n_rt_sigreturn n_close n_exit_group existsb In].
  unfold PROT_RW.
  destruct (s_nr c =? 63) eqn:E0; [split; [reflexivity | intros N; exfalso; apply N; lia]|].
  destruct (s_nr c =? 64) eqn:E1; [split; [reflexivity | intros N; exfalso; apply N; lia]|].
  destruct (s_nr c =? 73) eqn:E2; [split; [reflexivity | intros N; exfalso; apply N; lia]|].
  cbn [orb].
  destruct (s_nr c =? 226) eqn:E3.
  - destruct (MinHeapAddr <=? nth 0 (s_args c) 0) eqn:A0, (nth 1 (s_args c) 0 <? 2 ^ 32) eqn:A1,
      (nth 2 (s_args c) 0 mod 2 ^ 32 =? 3) eqn:A2; cbn [andb]; split; intros N; try reflexivity; exfalso;
      try (apply N; left; right; lia); destruct N as [[N | N] | N]; lia.
  - destruct (s_nr c =? 139) eqn:E4; [split; [reflexivity | intros N; exfalso; apply N; lia]|].
    destruct (s_nr c =? 57) eqn:E5; [split; [reflexivity | intros N; exfalso; apply N; lia]|].
    destruct (s_nr c =? 94) eqn:E6; [split; [reflexivity | intros N; exfalso; apply N; lia]|].
    cbn [orb]. destruct (s_nr c =? 3) eqn:E7; [split; [reflexivity | intros N; exfalso; apply N; lia]|].
    split; [intros N; exfalso; destruct N as [[N | N] | N]; lia | reflexivity].
Qed.
Print Assumptions seccomp_aarch64_exact_partial.

Theorem seccomp_aarch64_refuted : exists c, valid_syscall c /\ ~ listed aarch64 c /\ seccomp (seccomp_filter aarch64) c = Some ALLOW.
Proof.
  exists (Syscall 3 AUDIT_ARCH_AARCH64 0 [0; 0; 0; 0; 0; 0]).
  unfold valid_syscall, listed, plain_call, grow_call. cbn [s_nr s_arch s_args nth aarch64 n_read n_write n_ppoll n_grow n_rt_sigreturn n_close n_exit_group In].
  repeat split; try (unfold AUDIT_ARCH_AARCH64; lia); repeat constructor; try lia; vm_compute; reflexivity.
Qed.
Print Assumptions seccomp_aarch64_refuted.

(* The call's architecture is not looked at: the numbers of 64-bit calls are allowed as 32-bit calls too
   (int 0x80), where they mean something else: 15 is chmod, 271 is utimes, 231 is fgetxattr, 3 is read. *)
Theorem seccomp_compat_refuted : forall nr arch args,
  In nr [3; 15; 231; 271] -> 0 <= arch < 2 ^ 32 -> length args = 6%nat -> Forall (fun a => 0 <= a < 2 ^ 64) args ->
  seccomp (seccomp_filter x86_64) (Syscall nr arch 0 args) = Some ALLOW.
Proof.
  intros nr arch args I A L F.
  assert (V : valid_syscall (Syscall nr arch 0 args)).
  { unfold valid_syscall; cbn [s_nr s_arch s_args In]. cbn [In] in I. repeat split; auto; lia. }
  apply seccomp_x86_64_exact; [exact V|]. left. unfold plain_call. cbn [s_nr x86_64 n_read n_write n_ppoll n_rt_sigreturn n_close n_exit_group In] in *. lia.
Qed.
Print Assumptions seccomp_compat_refuted.

(* On Android the size check of mremap is vacuous (BPF_JGE 0), so that the old size may be anything; and
   number 0 (io_setup) is allowed. *)
Theorem seccomp_android_refuted :
  (forall arch a0 old, 0 <= arch < 2 ^ 32 -> 0 <= a0 < 2 ^ 64 -> 0 <= old < 2 ^ 64 ->
     seccomp (android_filter aarch64_android) (Syscall 216 arch 0 [a0; old; 65536; 0; 0; 0]) = Some ALLOW) /\
  (forall arch args, 0 <= arch < 2 ^ 32 ->
     seccomp (android_filter aarch64_android) (Syscall 0 arch 0 args) = Some ALLOW).
Proof.
  split.
  - intros arch a0 old _ H0 H1. unfold seccomp. change (length (android_filter aarch64_android)) with 16%nat.
    unfold android_filter, filter_head, filter_mremap, filter_tail. cbn [app aarch64_android n_read n_write n_ppoll n_grow n_rt_sigreturn n_close n_exit_group].
    change (16 + 8 * 1 + 4) with 28. change (16 + 8 * 2 + 4) with 36. change (16 + 8 * 3) with 40.
    rewrite run_ld. change (data_word (Syscall 216 arch 0 [a0; old; 65536; 0; 0; 0]) 0) with 216.
    do 4 (rewrite run_jeq; cbn [skipn Z.eqb Pos.eqb]). rewrite run_ld, run_jge.
    assert (W : (0 <=? data_word (Syscall 216 arch 0 [a0; old; 65536; 0; 0; 0]) 28) = true).
    { apply Z.leb_le. change (data_word (Syscall 216 arch 0 [a0; old; 65536; 0; 0; 0]) 28) with (u32 (old / 2 ^ 32)).
      unfold u32. apply Z.mod_pos_bound. lia. }
    rewrite W. cbn [skipn]. rewrite run_ld, run_jeq.
    change (data_word (Syscall 216 arch 0 [a0; old; 65536; 0; 0; 0]) 36) with 0.
    cbn [skipn Z.eqb]. rewrite run_ld, run_jeq. change (data_word (Syscall 216 arch 0 [a0; old; 65536; 0; 0; 0]) 40) with 0. reflexivity.
  - intros arch args _. reflexivity.
Qed.
Print Assumptions seccomp_android_refuted.

(** C85 *)

(* No call that the filter allows changes the protection of executable memory of the process: whatever the
   program, the addresses and the call. *)
Theorem code_stays_immutable : forall s P p mask rnd i c, (s = x86_64 \/ s = aarch64) ->
  page_size P -> valid_program P p -> is_bytes rnd -> start_info P p mask rnd = Ok i ->
  valid_syscall c -> s_nr c = n_grow s -> seccomp (seccomp_filter s) c = Some ALLOW ->
  forall m a, In m (loader_mappings i) -> m_prot m = RX -> occupies P m a ->
  ~ mprotect_changes P (nth 0 (s_args c) 0) (nth 1 (s_args c) 0) a.
Proof.
  intros s P p mask rnd i c Hs HP V Hb H VC N A m a I RXm O.
  destruct (start_addrs _ _ _ _ _ HP V Hb H) as (AT & AH & AS & DT & DH & DS).
  destruct (page_div P HP) as (PP & P64 & P32 & PB).
  assert (G : MinHeapAddr <= nth 0 (s_args c) 0).
  { rewrite filter_steps in A by exact VC. cbn zeta in A. rewrite N in A.
    destruct Hs as [-> | ->]; cbn [existsb n_read n_write n_ppoll n_grow x86_64 aarch64] in A; cbn [Z.eqb Pos.eqb orb] in A;
      destruct (MinHeapAddr <=? nth 0 (s_args c) 0) eqn:E; try lia; cbn [andb] in A; vm_compute in A; discriminate. }
  assert (F : i_page i = P /\ i_text_size i < 2 ^ 32).
  { destruct V as (V1 & V2 & _). unfold start_info in H.
    destruct (getRand P (p_text_addr p) (p_needs_random p) rnd) as [[[[t h] st] r]| |]; cbn [bind] in H; try discriminate.
    injection H as <-. cbn [i_page i_text_size]. unfold u32. rewrite !Z.mod_small by lia. lia. }
  destruct F as (F1 & F2).
  assert (B : a < MinHeapAddr).
  { unfold loader_mappings in I. apply in_app_or in I.
    unfold MaxTextAddr, MinHeapAddr in *.
    assert (RP : (P + P - 1) / P * P = P) by (apply round_up_mult; auto; exists 1; ring).
    pose proof (round_up_le P (i_text_size i) (2 ^ 32) PP P32 ltac:(lia)) as RT.
    destruct I as [[<- | [<- | [<- | []]]] | I].
    - unfold occupies in O; cbn [m_addr m_size] in O. rewrite F1, RP in O. lia.
    - unfold occupies in O; cbn [m_addr m_size] in O. lia.
    - discriminate RXm.
    - destruct (i_globals_size i + i_grow_memory i =? 0); [destruct I|].
      destruct I as [<- | [<- | []]]; discriminate RXm. }
  unfold mprotect_changes. lia.
Qed.
Print Assumptions code_stays_immutable.

(* Executable are the runtime and the program's code, all of it and nothing else of the process, and neither is writable *)
Theorem code_is_executable : forall P p mask rnd i, page_size P -> valid_program P p -> is_bytes rnd -> start_info P p mask rnd = Ok i ->
  (forall a, i_text i - P <= a < i_text i + i_text_size i -> exists m, In m (loader_mappings i) /\ m_prot m = RX /\ occupies P m a) /\
  (forall m a, In m (loader_mappings i) -> occupies P m a ->
     (m_prot m = RX <-> i_text i - P <= a < i_text i + (i_text_size i + P - 1) / P * P)).
Proof.
  intros P p mask rnd i HP V Hb H.
  destruct (start_addrs _ _ _ _ _ HP V Hb H) as (AT & AH & AS & DT & DH & DS).
  destruct (page_div P HP) as (PP & P64 & P32 & PB).
  assert (F : i_page i = P /\ 0 <= i_text_size i < 2 ^ 32).
  { destruct V as (V1 & V2 & _). unfold start_info in H.
    destruct (getRand P (p_text_addr p) (p_needs_random p) rnd) as [[[[t h] st] r]| |]; cbn [bind] in H; try discriminate.
    injection H as <-. cbn [i_page i_text_size]. unfold u32. rewrite !Z.mod_small by lia. lia. }
  destruct F as (F1 & F2).
  assert (RP : (P + P - 1) / P * P = P) by (apply round_up_mult; auto; exists 1; ring).
  pose proof (round_up_le P (i_text_size i) (2 ^ 32) PP P32 ltac:(lia)) as RT.
  unfold MinTextAddr, MaxTextAddr, MinHeapAddr, MaxHeapAddr, MinStackAddr, MaxStackAddr in *.
  split.
  - intros a Ha. destruct (Z.lt_ge_cases a (i_text i)) as [L|L].
    + exists (Mapping (i_text i - i_page i) (i_page i) RX). split; [left; reflexivity|]. split; [reflexivity|].
      unfold occupies; cbn [m_addr m_size]. rewrite F1, RP. lia.
    + exists (Mapping (i_text i) (i_text_size i) RX). split; [right; left; reflexivity|]. split; [reflexivity|].
      unfold occupies; cbn [m_addr m_size]. pose proof (Z.div_mod (i_text_size i + P - 1) P ltac:(lia)).
      pose proof (Z.mod_pos_bound (i_text_size i + P - 1) P ltac:(lia)). lia.
  - intros m a I O. unfold loader_mappings in I. apply in_app_or in I.
    assert (0 <= (i_text_size i + P - 1) / P) by (apply Z.div_pos; lia).
    destruct I as [[<- | [<- | [<- | []]]] | I].
    + unfold occupies in O; cbn [m_addr m_size m_prot] in *. rewrite F1, RP in O. split; [intros _; nia|reflexivity].
    + unfold occupies in O; cbn [m_addr m_size m_prot] in *. split; [intros _; lia|reflexivity].
    + unfold occupies in O; cbn [m_addr m_size m_prot] in *. split; [discriminate|intros; lia].
    + destruct (i_globals_size i + i_grow_memory i =? 0); [destruct I|].
      assert (G : 0 <= i_globals_size i + i_init_memory i).
      { unfold start_info in H. destruct (getRand P (p_text_addr p) (p_needs_random p) rnd) as [[[[t h] st] r]| |]; cbn [bind] in H; try discriminate.
        injection H as <-. cbn [i_globals_size i_init_memory]. unfold u32. pose proof (Z.mod_pos_bound (p_globals_size p) (2 ^ 32) ltac:(lia)).
        pose proof (Z.mod_pos_bound (p_memory_size p) (2 ^ 32) ltac:(lia)). lia. }
      destruct I as [<- | [<- | []]]; unfold occupies in O; cbn [m_addr m_size m_prot] in *; split; try discriminate; intros; lia.
Qed.
Print Assumptions code_is_executable.

(** C86 *)

Definition valid_info (i : info) : Prop :=
  Forall (fun x => 0 <= x < 2 ^ 32) [i_page i; i_text_size i; i_stack_size i; i_stack_unused i; i_globals_size i;
    i_init_memory i; i_grow_memory i; i_init_routine i; i_start i; i_entry i; i_time_mask i] /\
  Forall (fun x => 0 <= x < 2 ^ 64) [i_text i; i_stack i; i_heap i; i_monotonic i] /\
  length (i_random i) = 16%nat.

Lemma le4 : forall x, 0 <= x < 2 ^ 32 -> exists a b c d, le 4 x = [a; b; c; d] /\ unle [a; b; c; d] = x.
Proof.
  intros x H. cbn [le]. do 4 eexists. split; [reflexivity|].
  change [x mod 256; x / 256 mod 256; x / 256 / 256 mod 256; x / 256 / 256 / 256 mod 256] with (le 4 x).
  rewrite unle_le. apply Z.mod_small. change (256 ^ Z.of_nat 4) with (2 ^ 32). lia.
Qed.
Lemma le8 : forall x, 0 <= x < 2 ^ 64 -> exists a b c d e f g h, le 8 x = [a; b; c; d; e; f; g; h] /\ unle [a; b; c; d; e; f; g; h] = x.
Proof.
  intros x H. exists (nth 0 (le 8 x) 0), (nth 1 (le 8 x) 0), (nth 2 (le 8 x) 0), (nth 3 (le 8 x) 0),
    (nth 4 (le 8 x) 0), (nth 5 (le 8 x) 0), (nth 6 (le 8 x) 0), (nth 7 (le 8 x) 0).
  split; [reflexivity|]. transitivity (unle (le 8 x)); [reflexivity|].
  rewrite unle_le. apply Z.mod_small. change (256 ^ Z.of_nat 8) with (2 ^ 64). lia.
Qed.

Ltac blocks H :=
  repeat match type of H with
  | Forall _ [] => clear H
  | Forall _ (_ :: _) =>
      let B := fresh "B" in let T := fresh "T" in
      inversion H as [|? ? B T]; subst; clear H; rename T into H
  end.

(* The loader sees exactly the parameters that the runtime sent. *)
Theorem info_received : forall i, valid_info i -> receive_info (info_bytes i) = Ok i.
Proof.
  intros [page text stack heap rnd ts ss su gs im gm ir sa ea tm mt] (H4 & H8 & HR).
  cbn [i_page i_text i_stack i_heap i_random i_text_size i_stack_size i_stack_unused i_globals_size i_init_memory i_grow_memory i_init_routine i_start i_entry i_time_mask i_monotonic] in *.
  do 16 (destruct rnd as [|? rnd]; [discriminate HR|]). destruct rnd; [clear HR | discriminate HR].
  blocks H4. blocks H8.
  unfold info_bytes.
  cbn [i_page i_text i_stack i_heap i_random i_text_size i_stack_size i_stack_unused i_globals_size i_init_memory i_grow_memory i_init_routine i_start i_entry i_time_mask i_monotonic].
  change (le 4 magic1) with [0x3a; 0x8f; 0x32; 0x19].
  change (le 8 magic2) with [0x6c; 0x27; 0x25; 0x51; 0xd7; 0x34; 0x58; 0x97].
  repeat match goal with
  | B : 0 <= ?x < 2 ^ 32 |- context [le 4 ?x] =>
      let E := fresh "E" in let U := fresh "U" in
      destruct (le4 x B) as (? & ? & ? & ? & E & U); rewrite E; clear E B
  | B : 0 <= ?x < 2 ^ 64 |- context [le 8 ?x] =>
      let E := fresh "E" in let U := fresh "U" in
      destruct (le8 x B) as (? & ? & ? & ? & ? & ? & ? & ? & E & U); rewrite E; clear E B
  end.
  cbn [app]. unfold receive_info, get_le, slice. cbn [length Nat.eqb negb Nat.add Nat.leb skipn firstn bind].
  repeat match goal with U : unle ?l = ?x |- _ => rewrite U; clear U end.
  reflexivity.
Qed.
Print Assumptions info_received.

Lemma start_info_valid : forall P p mask rnd i, page_size P -> valid_program P p -> is_bytes rnd ->
  length rnd = rand_len (p_text_addr p) (p_needs_random p) -> 0 <= mask < 2 ^ 32 ->
  start_info P p mask rnd = Ok i -> valid_info i.
Proof.
  intros P p mask rnd i HP V Hb L HM H.
  destruct (start_addrs _ _ _ _ _ HP V Hb H) as (AT & AH & AS & _).
  destruct (page_div P HP) as (PP & _).
  unfold MinTextAddr, MaxTextAddr, MinHeapAddr, MaxHeapAddr, MinStackAddr, MaxStackAddr in *.
  destruct V as (V1 & V2 & V3 & V4 & V5 & V6 & V7 & V8 & V9 & V10 & V11 & V12 & VT).
  unfold start_info in H.
  destruct (getRand P (p_text_addr p) (p_needs_random p) rnd) as [[[[t h] st] r]| |] eqn:E; cbn [bind] in H; try discriminate.
  injection H as <-. cbn [i_text i_stack i_heap] in *.
  assert (U : forall x, 0 <= u32 x < 2 ^ 32) by (intros; unfold u32; apply Z.mod_pos_bound; lia).
  unfold valid_info. cbn [i_page i_text i_stack i_heap i_random i_text_size i_stack_size i_stack_unused i_globals_size i_init_memory i_grow_memory i_init_routine i_start i_entry i_time_mask i_monotonic].
  split; [|split].
  - repeat constructor; try apply U; try lia; destruct (u32 (p_stack_size p - p_stack_usage p) =? u32 (p_stack_size p));
      unfold TextAddrEnter, TextAddrResume; lia.
  - repeat constructor; lia.
  - unfold getRand, RandAddr in E.
    destruct (get_le 0 4 rnd) as [x| |]; cbn [bind] in E; try discriminate.
    destruct (get_le 0 4 (skipn 4 rnd)) as [y| |]; cbn [bind] in E; try discriminate.
    unfold rand_len in L. rewrite skipn_skipn in E.
    destruct (p_text_addr p =? 0).
    + destruct (get_le 0 4 (skipn (4 + 4) rnd)) as [z| |]; cbn [bind] in E; try discriminate.
      rewrite skipn_skipn in E. match type of E with Ok (_, ?q) = _ => assert (ER : r = q) by congruence end; rewrite ER; clear ER E.
      destruct (p_needs_random p); [|reflexivity].
      rewrite firstn_length, skipn_length. lia.
    + cbn [bind] in E. match type of E with Ok (_, ?q) = _ => assert (ER : r = q) by congruence end; rewrite ER; clear ER E.
      destruct (p_needs_random p); [|reflexivity].
      rewrite firstn_length, skipn_length. lia.
Qed.

(* What a process does first: an instance that has not run is entered through the start and entry functions from
   the top of its stack; a suspended one is resumed with its stack as it was left. *)
Theorem start_routine_exact : forall P p mask rnd i, page_size P -> valid_program P p ->
  start_info P p mask rnd = Ok i ->
  (p_stack_usage p = 0 ->
     i_init_routine i = TextAddrEnter /\
     loader_stack i = (i_stack i + p_stack_size p - 16, [p_start_addr p; p_entry_addr p])) /\
  (p_stack_usage p > 0 ->
     i_init_routine i = TextAddrResume /\
     loader_stack i = (i_stack i + p_stack_size p - p_stack_usage p, [])).
Proof.
  intros P p mask rnd i HP V H.
  destruct V as (V1 & V2 & V3 & V4 & _).
  unfold start_info in H.
  destruct (getRand P (p_text_addr p) (p_needs_random p) rnd) as [[[[t h] st] r]| |] eqn:E; cbn [bind] in H; try discriminate.
  injection H as <-. unfold loader_stack. cbn [i_init_routine i_stack i_stack_unused i_stack_size i_start i_entry].
  unfold u32. rewrite !Z.mod_small by lia.
  split; intros U.
  - replace (p_stack_size p - p_stack_usage p =? p_stack_size p) with true by lia.
    split; [reflexivity|]. f_equal. lia.
  - replace (p_stack_size p - p_stack_usage p =? p_stack_size p) with false by lia.
    split; [reflexivity|]. f_equal. lia.
Qed.
Print Assumptions start_routine_exact.

(* Together: what the loader does with the runtime's message. *)
Theorem start_received : forall P p mask rnd, page_size P -> valid_program P p -> is_bytes rnd ->
  length rnd = rand_len (p_text_addr p) (p_needs_random p) -> 0 <= mask < 2 ^ 32 ->
  exists i, start_info P p mask rnd = Ok i /\ receive_info (info_bytes i) = Ok i /\
    i_page i = P /\ i_text_size i = p_text_size p /\ i_stack_size i = p_stack_size p /\
    i_globals_size i = p_globals_size p /\ i_init_memory i = p_memory_size p /\ i_grow_memory i = p_max_memory p /\
    i_time_mask i = mask /\ i_monotonic i = p_monotonic p /\
    (p_text_addr p <> 0 -> i_text i = p_text_addr p) /\
    (p_needs_random p = true -> i_random i = skipn (length rnd - 16) rnd).
Proof.
  intros P p mask rnd HP V Hb L HM.
  destruct (layout_total P p mask rnd HP V Hb L) as [i H].
  exists i. split; [exact H|]. split; [apply info_received; eapply start_info_valid; eauto|].
  destruct (page_div P HP) as (PP & P64 & P32 & PB).
  destruct V as (V1 & V2 & V3 & V4 & V5 & V6 & V7 & V8 & V9 & V10 & V11 & V12 & VT).
  unfold start_info in H.
  destruct (getRand P (p_text_addr p) (p_needs_random p) rnd) as [[[[t h] st] r]| |] eqn:E; cbn [bind] in H; try discriminate.
  injection H as <-. cbn [i_page i_text i_stack i_heap i_random i_text_size i_stack_size i_stack_unused i_globals_size i_init_memory i_grow_memory i_init_routine i_start i_entry i_time_mask i_monotonic].
  unfold u32. repeat split; try (apply Z.mod_small; lia); try (rewrite Z.mod_small by lia; congruence).
  - unfold getRand, RandAddr in E.
    destruct (get_le 0 4 rnd) as [x| |]; cbn [bind] in E; try discriminate.
    destruct (get_le 0 4 (skipn 4 rnd)) as [y| |]; cbn [bind] in E; try discriminate.
    intros N. replace (p_text_addr p =? 0) with false in E by lia. cbn [bind] in E. congruence.
  - intros NR. rewrite NR in *. unfold rand_len in L. unfold getRand, RandAddr in E.
    destruct (get_le 0 4 rnd) as [x| |]; cbn [bind] in E; try discriminate.
    destruct (get_le 0 4 (skipn 4 rnd)) as [y| |]; cbn [bind] in E; try discriminate.
    rewrite skipn_skipn in E. destruct (p_text_addr p =? 0).
    + destruct (get_le 0 4 (skipn (4 + 4) rnd)) as [z| |]; cbn [bind] in E; try discriminate.
      rewrite skipn_skipn in E. match type of E with Ok (_, ?q) = _ => assert (ER : r = q) by congruence end; rewrite ER; clear ER E.
      rewrite firstn_all2 by (rewrite skipn_length; lia). f_equal. lia.
    + cbn [bind] in E. match type of E with Ok (_, ?q) = _ => assert (ER : r = q) by congruence end; rewrite ER; clear ER E.
      rewrite firstn_all2 by (rewrite skipn_length; lia). f_equal. lia.
Qed.
Print Assumptions start_received.
Example start_received_sample : length (repeat 255 28) = rand_len (p_text_addr sample_program) (p_needs_random sample_program)
  /\ is_bytes (repeat 255 28) /\ p_stack_usage sample_program = 0.
Proof. split; [reflexivity|split; [|reflexivity]]. unfold is_bytes. repeat constructor; unfold is_byte; lia. Qed.
