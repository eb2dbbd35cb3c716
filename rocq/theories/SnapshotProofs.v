(* SnapshotProofs.v: lemmas for SnapshotProps.v. *)
From Verif Require Import BaseLemmas VarintProofs SnapshotSections SnapshotSpec.

Local Opaque str.

Lemma zrepeat_app {A} (x : A) n m : repeat x n ++ repeat x m = repeat x (n + m).
Proof. induction n; simpl; congruence. Qed.

(* Writing at the end of the written part of a zeroed buffer. *)
Lemma wput_ok p k v : (length v <= k)%nat ->
  wput (p ++ repeat 0 k, length p) v = Ok ((p ++ v) ++ repeat 0 (k - length v), length (p ++ v)).
Proof.
  intros H. unfold wput. rewrite put_at_ok by (rewrite app_length, repeat_length; lia). cbn [bind].
  rewrite firstn_app_exact by reflexivity. f_equal. f_equal.
  - rewrite <- app_assoc. f_equal. f_equal.
    replace (repeat 0 k) with (repeat 0 (length v) ++ repeat 0 (k - length v)).
    2:{ rewrite zrepeat_app. f_equal. lia. }
    rewrite app_assoc. apply skipn_app_exact. now rewrite app_length, repeat_length.
  - now rewrite app_length.
Qed.

Lemma wput_short p k v : (k < length v)%nat -> wput (p ++ repeat 0 k, length p) v = Panic.
Proof.
  intros H. unfold wput, put_at. rewrite (proj2 (Nat.leb_gt _ _)) by (rewrite app_length, repeat_length; lia). reflexivity.
Qed.

(* Writing before the written part. *)
Lemma before_ok h v x c : v = put_uvarint_bytes x -> (length v <= h)%nat ->
  putVaruint32Before (repeat 0 h ++ c) h x = Ok (length v, repeat 0 (h - length v) ++ v ++ c).
Proof.
  intros -> H. unfold putVaruint32Before. rewrite (proj2 (Nat.ltb_ge _ _)) by lia.
  rewrite put_at_ok by (rewrite app_length, repeat_length; lia). cbn [bind]. f_equal. f_equal.
  replace (repeat 0 h) with (repeat 0 (h - length (put_uvarint_bytes x)) ++ repeat 0 (length (put_uvarint_bytes x))).
  2:{ rewrite zrepeat_app. f_equal. lia. }
  rewrite <- app_assoc. rewrite firstn_app_exact by (now rewrite repeat_length). f_equal. f_equal.
  rewrite app_assoc. apply skipn_app_exact. rewrite app_length, !repeat_length. lia.
Qed.

Lemma byte_before_ok k x c : putByteBefore (repeat 0 (S k) ++ c) (S k) x = Ok (k, repeat 0 k ++ x :: c).
Proof.
  unfold putByteBefore. rewrite put_at_ok by (rewrite app_length, repeat_length; simpl; lia). cbn [bind]. f_equal. f_equal.
  replace (repeat 0 (S k) ++ c) with (repeat 0 k ++ [0] ++ c).
  2:{ change (S k) with (1 + k)%nat. rewrite Nat.add_comm, <- zrepeat_app, <- app_assoc. reflexivity. }
  rewrite firstn_app_exact by (now rewrite repeat_length). f_equal. cbn [app length]. f_equal.
  change (0 :: c) with ([0] ++ c). rewrite app_assoc. apply skipn_app_exact. now rewrite app_length, repeat_length.
Qed.

Lemma slice_mid a b c n m : n = length a -> m = length b -> slice n m (a ++ b ++ c) = Ok b.
Proof.
  intros -> ->. rewrite slice_ok by (rewrite !app_length; lia).
  rewrite skipn_app_exact by reflexivity. now rewrite firstn_app_exact by reflexivity.
Qed.

(* The section frame in front of content [c] at offset 6. *)
Lemma frame_ok x id P c z v : P = repeat 0 6 ++ c -> v = put_uvarint_bytes x -> (length v <= 5)%nat ->
  (do '(pn, b) <- putVaruint32Before (P ++ z) 6 x;
   do '(n, b) <- putByteBefore b (6 - pn) id;
   slice n (length P - n) b) = Ok (id :: v ++ c).
Proof.
  intros -> E H. rewrite <- app_assoc. rewrite (before_ok 6 v x (c ++ z) E) by lia. cbn [bind].
  destruct (6 - length v)%nat as [|k] eqn:Ek; [lia|].
  rewrite byte_before_ok. cbn [bind].
  replace (repeat 0 k ++ id :: v ++ c ++ z) with (repeat 0 k ++ (id :: v ++ c) ++ z) by (cbn [app]; now rewrite <- app_assoc).
  apply slice_mid; [now rewrite repeat_length|]. rewrite app_length, repeat_length. cbn [length]. rewrite app_length. lia.
Qed.

(* LEB128 *)
Lemma uleb_put k : forall x, 0 <= x < 128 ^ (Z.of_nat k + 1) -> uleb x (uvarint_bytes k x).
Proof.
  induction k; intros x H; simpl.
  - apply uleb_last. exact H.
  - destruct (Z.geb_spec x 128) as [G|G].
    + rewrite (Z.div_mod x 128) at 1 by lia. rewrite Z.add_comm. apply uleb_more.
      * apply Z.mod_pos_bound. lia.
      * apply IHk. split; [apply Z.div_pos; lia|]. apply Z.div_lt_upper_bound; [lia|].
        replace (Z.of_nat (S k) + 1) with (1 + (Z.of_nat k + 1)) in H by lia. rewrite Z.pow_add_r in H by lia. lia.
    + apply uleb_last. lia.
Qed.

Lemma uleb_put64 x : 0 <= x < 2 ^ 64 -> uleb x (put_uvarint_bytes x).
Proof.
  intros H. apply uleb_put. split; [lia|]. assert (2 ^ 64 < 128 ^ (Z.of_nat 9 + 1)) by (vm_compute; reflexivity). lia.
Qed.

Lemma put_len_n x n : 0 <= x < 2 ^ (7 * Z.of_nat n) -> (1 <= n)%nat -> (1 <= length (put_uvarint_bytes x) <= n)%nat.
Proof. intros H Hn. split; [apply uvarint_len_pos|]. now apply uvarint_len_gen. Qed.

Lemma put_len32 x : 0 <= x < 2 ^ 32 -> (1 <= length (put_uvarint_bytes x) <= 5)%nat.
Proof.
  intros H. apply put_len_n; [|lia]. assert (2 ^ 32 < 2 ^ (7 * Z.of_nat 5)) by (vm_compute; reflexivity). lia.
Qed.
Lemma put_len64 x : 0 <= x < 2 ^ 64 -> (1 <= length (put_uvarint_bytes x) <= 10)%nat.
Proof.
  intros H. apply put_len_n; [|lia]. assert (2 ^ 64 < 2 ^ (7 * Z.of_nat 10)) by (vm_compute; reflexivity). lia.
Qed.
Lemma put_small x : 0 <= x < 128 -> put_uvarint_bytes x = [x].
Proof. intros H. unfold put_uvarint_bytes. simpl. destruct (Z.geb_spec x 128); [lia|reflexivity]. Qed.

Lemma wasm_u32_put x : 0 <= x < 2 ^ 32 -> wasm_u32 x (put_uvarint_bytes x).
Proof.
  intros H. assert (2 ^ 32 < 2 ^ 64) by (vm_compute; reflexivity). split; [apply uleb_put64; lia|]. split; [exact H|].
  pose proof (put_len32 x H). unfold len. lia.
Qed.

(* Reading back. *)
Lemma pow_split b : 7 <= b -> 2 ^ b = 128 * 2 ^ (b - 7).
Proof. intros H. replace b with (7 + (b - 7)) at 1 by lia. rewrite Z.pow_add_r by lia. reflexivity. Qed.

Lemma pow_ge128 b : 7 <= b -> 128 <= 2 ^ b.
Proof. intros H. rewrite pow_split by lia. assert (0 < 2 ^ (b - 7)) by (apply Z.pow_pos_nonneg; lia). lia. Qed.

Lemma pow_le128 b : b <= 7 -> 2 ^ b <= 128.
Proof. intros H. destruct (Z.ltb_spec b 0); [rewrite Z.pow_neg_r by lia; lia|]. change 128 with (2 ^ 7). apply Z.pow_le_mono_r; lia. Qed.

Lemma varuint_put k : forall f bits x t,
  0 <= x < 2 ^ bits -> 0 < bits <= 7 * Z.of_nat k -> bits <= 7 * (Z.of_nat f + 1) ->
  varuint k bits (uvarint_bytes f x ++ t) = Ok (x, length (uvarint_bytes f x), t).
Proof.
  induction k; intros f bits x t Hx Hk Hf; [lia|].
  destruct f as [|f].
  - cbn [uvarint_bytes app varuint length]. pose proof (pow_le128 bits ltac:(lia)).
    destruct (Z.ltb_spec x 128); [|lia]. destruct (Z.ltb_spec x (2 ^ bits)); [reflexivity|lia].
  - cbn [uvarint_bytes]. destruct (Z.geb_spec x 128) as [G|G].
    + destruct (Z.leb_spec bits 7) as [B|B]; [pose proof (pow_le128 bits B); lia|].
      cbn [app varuint]. pose proof (Z.mod_pos_bound x 128 ltac:(lia)).
      destruct (Z.ltb_spec (x mod 128 + 128) 128); [lia|].
      rewrite IHk.
      * cbn [bind length]. f_equal. f_equal. f_equal. pose proof (Z.div_mod x 128 ltac:(lia)). lia.
      * split; [apply Z.div_pos; lia|]. apply Z.div_lt_upper_bound; [lia|]. rewrite <- pow_split by lia. lia.
      * lia.
      * lia.
    + cbn [app varuint length]. destruct (Z.ltb_spec x 128); [|lia]. destruct (Z.ltb_spec x (2 ^ bits)); [reflexivity|lia].
Qed.

Lemma Varuint32_put x t : 0 <= x < 2 ^ 32 -> Varuint32 (put_uvarint_bytes x ++ t) = Ok (x, length (put_uvarint_bytes x), t).
Proof. intros H. apply varuint_put; lia. Qed.
Lemma Varuint64_put x t : 0 <= x < 2 ^ 64 -> Varuint64 (put_uvarint_bytes x ++ t) = Ok (x, length (put_uvarint_bytes x), t).
Proof. intros H. apply varuint_put; lia. Qed.

Lemma varuint_too_big k : forall f bits x t,
  2 ^ bits <= x < 128 ^ (Z.of_nat f + 1) -> 7 * (Z.of_nat k - 1) <= bits ->
  varuint k bits (uvarint_bytes f x ++ t) = Err.
Proof.
  induction k; intros f bits x t Hx Hk; [now destruct (uvarint_bytes f x ++ t)|].
  destruct f as [|f].
  - cbn [uvarint_bytes app varuint]. destruct (Z.ltb_spec x 128).
    + destruct (Z.ltb_spec x (2 ^ bits)); [lia|reflexivity].
    + change (128 ^ (Z.of_nat 0 + 1)) with 128 in Hx. lia.
  - cbn [uvarint_bytes]. destruct (Z.geb_spec x 128) as [G|G].
    + cbn [app varuint]. pose proof (Z.mod_pos_bound x 128 ltac:(lia)).
      destruct (Z.ltb_spec (x mod 128 + 128) 128); [lia|].
      rewrite IHk; [reflexivity| |lia]. split.
      * destruct (Z.leb_spec 7 bits).
        -- apply Z.div_le_lower_bound; [lia|]. rewrite <- pow_split by lia. lia.
        -- rewrite Z.pow_neg_r by lia. apply Z.div_pos; lia.
      * apply Z.div_lt_upper_bound; [lia|].
        replace (Z.of_nat (S f) + 1) with (1 + (Z.of_nat f + 1)) in Hx by lia. rewrite Z.pow_add_r in Hx by lia. lia.
    + cbn [app varuint]. destruct (Z.ltb_spec x 128); [|lia]. destruct (Z.ltb_spec x (2 ^ bits)); [lia|reflexivity].
Qed.

Lemma Varuint32_too_big x t : 2 ^ 32 <= x < 2 ^ 64 -> Varuint32 (put_uvarint_bytes x ++ t) = Err.
Proof.
  intros H. apply varuint_too_big; [|lia]. assert (2 ^ 64 < 128 ^ (Z.of_nat 9 + 1)) by (vm_compute; reflexivity). lia.
Qed.

(* Untrusted input. *)
Lemma varuint_total k : forall bits r, is_bytes r ->
  varuint k bits r = Err \/
  exists x n, varuint k bits r = Ok (x, n, skipn n r) /\ 0 <= x < 2 ^ bits /\ (1 <= n <= length r)%nat /\ (n <= k)%nat.
Proof.
  induction k; intros bits r H; [now left; destruct r|].
  destruct r as [|b t]; [now left|]. inversion H as [|? ? Hb Ht]; subst. unfold is_byte in Hb.
  cbn [varuint]. destruct (Z.ltb_spec b 128).
  - destruct (Z.ltb_spec b (2 ^ bits)); [|now left]. right. exists b, 1%nat. cbn [skipn length]. repeat split; lia.
  - destruct (IHk (bits - 7) t Ht) as [E|(x & n & E & Hx & Hn & Hk)]; rewrite E; cbn [bind]; [now left|].
    right. exists (b - 128 + 128 * x), (S n). cbn [skipn length]. repeat split; try lia.
    destruct (Z.leb_spec 7 bits); [rewrite (pow_split bits) by lia; lia|]. rewrite Z.pow_neg_r in Hx by lia. lia.
Qed.

Lemma put_bytes64 x : 0 <= x < 2 ^ 64 -> is_bytes (put_uvarint_bytes x).
Proof. apply put_uvarint_is_bytes. Qed.

(* Writing lists. *)
Lemma putUvarints_ok l : forall p k, Forall (fun b => 0 <= b < 2 ^ 64) l -> (10 * length l <= k)%nat ->
  putUvarints (p ++ repeat 0 k, length p) l =
  Ok ((p ++ flat_map put_uvarint_bytes l) ++ repeat 0 (k - length (flat_map put_uvarint_bytes l)), length (p ++ flat_map put_uvarint_bytes l)).
Proof.
  induction l as [|x l IH]; intros p k H Hk; cbn [putUvarints flat_map].
  - rewrite app_nil_r. cbn [length]. now rewrite Nat.sub_0_r.
  - inversion H as [|? ? Hx Hl]; subst. pose proof (put_len64 x Hx). cbn [length] in Hk.
    rewrite wput_ok by lia. cbn [bind]. rewrite IH by (auto; lia).
    rewrite app_assoc. f_equal. f_equal. f_equal. f_equal. rewrite app_length. lia.
Qed.

Lemma flat_put_len l : Forall (fun b => 0 <= b < 2 ^ 64) l ->
  (length l <= length (flat_map put_uvarint_bytes l) <= 10 * length l)%nat.
Proof.
  induction 1 as [|x l Hx _ IH]; [simpl; lia|]. cbn [flat_map]. rewrite app_length. pose proof (put_len64 x Hx). simpl. lia.
Qed.

Lemma readVaruint64s_put l : forall t, Forall (fun b => 0 <= b < 2 ^ 64) l ->
  readVaruint64s (length l) (flat_map put_uvarint_bytes l ++ t) = Ok (l, length (flat_map put_uvarint_bytes l), t).
Proof.
  induction l as [|x l IH]; intros t H; [reflexivity|]. inversion H as [|? ? Hx Hl]; subst.
  cbn [flat_map length readVaruint64s]. rewrite <- app_assoc, Varuint64_put by assumption. cbn [bind].
  rewrite IH by assumption. cbn [bind]. f_equal. f_equal. f_equal. now rewrite app_length.
Qed.

(* Content of the snapshot section (after the name). *)
Definition snapcontent (s : snap) : bytes :=
  [0] ++ put_uvarint_bytes (Flags s) ++ put_uvarint_bytes (u64 (Trap s)) ++ put_uvarint_bytes (u64 (Result s)) ++
  put_uvarint_bytes (MonotonicTime s) ++ put_uvarint_bytes (len (Breakpoints s)) ++ flat_map put_uvarint_bytes (Breakpoints s).

Lemma len_str_snapshot : length (str SectionSnapshot) = 13%nat. Proof. reflexivity. Qed.
Lemma len_str_export : length (str SectionExport) = 11%nat. Proof. reflexivity. Qed.
Lemma len_str_buffer : length (str SectionBuffer) = 11%nat. Proof. reflexivity. Qed.
Lemma len_str_stack : length (str SectionStack) = 10%nat. Proof. reflexivity. Qed.

(* The section is written whenever the values fit the space reserved. *)
Lemma makeSnapshot_ok s : snap_ok s -> len (Breakpoints s) < 2 ^ 28 ->
  (length (put_uvarint_bytes (u64 (Trap s))) + length (put_uvarint_bytes (u64 (Result s))) <= 10 +
     (10 - length (put_uvarint_bytes (Flags s))) + (10 - length (put_uvarint_bytes (MonotonicTime s))))%nat ->
  makeSnapshotSection s =
  Ok (0 :: put_uvarint_bytes (1 + len (str SectionSnapshot) + len (snapcontent s)) ++ [len (str SectionSnapshot)] ++ str SectionSnapshot ++ snapcontent s).
Proof.
  intros (HF & HT & HR & HM & HB) HN HS. unfold makeSnapshotSection.
  pose proof (put_len64 _ HF). pose proof (put_len64 _ HM).
  pose proof (put_len64 _ (u64_bound (Trap s))). pose proof (put_len64 _ (u64_bound (Result s))).
  pose proof (len_nonneg (Breakpoints s)) as HN0.
  assert (HN64 : 0 <= len (Breakpoints s) < 2 ^ 32) by (assert (2 ^ 28 < 2 ^ 32) by (vm_compute; reflexivity); lia).
  pose proof (put_len32 _ HN64). pose proof (flat_put_len _ HB).
  rewrite (u64_id (len (Breakpoints s))) by (assert (2 ^ 32 < 2 ^ 64) by (vm_compute; reflexivity); lia).
  rewrite len_str_snapshot. rewrite <- zrepeat_app.
  change (repeat 0 6, 6%nat) with (repeat 0 6, length (repeat 0 6)).
  assert (E6 : 6%nat = length (repeat 0 6)) by reflexivity.
  set (K := (1 + 13 + 1 + 10 + 5 + 5 + 10 + 5 + 10 * length (Breakpoints s))%nat).
  rewrite E6 at 2. rewrite wput_ok by (cbn [length]; lia). cbn [bind].
  rewrite wput_ok by (rewrite len_str_snapshot; cbn [length]; lia). cbn [bind].
  do 6 (rewrite wput_ok by (rewrite ?len_str_snapshot; cbn [length]; lia); cbn [bind]).
  rewrite putUvarints_ok by (try assumption; rewrite ?len_str_snapshot; cbn [length]; lia). cbn [bind].
  assert (EL : 0 <= 1 + len (str SectionSnapshot) + len (snapcontent s) < 2 ^ 32).
  { unfold len, snapcontent. rewrite !app_length, len_str_snapshot. cbn [length].
    unfold len in HN. assert (2 ^ 28 * 10 + 1000 < 2 ^ 32) by (vm_compute; reflexivity). lia. }
  pose proof (put_len32 _ EL).
  match goal with |- context [putVaruint32Before (?P ++ ?z) 6 ?x] => set (Pb := P) end.
  assert (EP : Pb = repeat 0 6 ++ ([len (str SectionSnapshot)] ++ str SectionSnapshot ++ snapcontent s)).
  { unfold Pb, snapcontent. rewrite <- !app_assoc. reflexivity. }
  replace (u32 (Z.of_nat (length Pb - 6))) with (1 + len (str SectionSnapshot) + len (snapcontent s)).
  2:{ rewrite EP, !app_length, repeat_length. cbn [length]. rewrite u32_id; unfold len in *; lia. }
  apply frame_ok; [exact EP|reflexivity|lia].
Qed.

Lemma ReadSnapshot_ok s t : snap_ok s -> 0 <= Trap s -> 0 <= Result s -> len (Breakpoints s) <= MaxBreakpoints ->
  ReadSnapshotSection (snapcontent s ++ t) = Ok (s, length (snapcontent s), t).
Proof.
  intros (HF & HT & HR & HM & HB) T0 R0 HN. unfold ReadSnapshotSection, snapcontent.
  rewrite <- (put_small 0) by lia. rewrite <- !app_assoc.
  assert (A31 : 2 ^ 31 < 2 ^ 32) by (vm_compute; reflexivity). assert (A32 : 2 ^ 32 < 2 ^ 64) by (vm_compute; reflexivity).
  pose proof (len_nonneg (Breakpoints s)). unfold MaxBreakpoints in *.
  assert (100 < 2 ^ 32) by (vm_compute; reflexivity).
  rewrite !u64_id by lia.
  rewrite Varuint64_put by lia. cbn [bind]. rewrite Varuint64_put by lia. cbn [bind].
  rewrite Varuint32_put by lia. cbn [bind]. rewrite Varuint32_put by lia. cbn [bind].
  rewrite Varuint64_put by lia. cbn [bind]. rewrite Varuint32_put by lia. cbn [bind].
  destruct (Z.gtb_spec (len (Breakpoints s)) 100); [lia|].
  replace (Z.to_nat (len (Breakpoints s))) with (length (Breakpoints s)) by (unfold len; now rewrite Nat2Z.id).
  rewrite readVaruint64s_put by assumption. cbn [bind]. rewrite !s32_id by lia.
  f_equal. f_equal. f_equal; [destruct s; reflexivity|]. rewrite !app_length. lia.
Qed.

Lemma ReadSnapshot_negative s t : snap_ok s -> Result s < 0 -> 0 <= Trap s ->
  ReadSnapshotSection (snapcontent s ++ t) = Err.
Proof.
  intros (HF & HT & HR & HM & HB) R0 T0. unfold ReadSnapshotSection, snapcontent.
  rewrite <- (put_small 0) by lia. rewrite <- !app_assoc.
  assert (A31 : 2 ^ 31 < 2 ^ 32) by (vm_compute; reflexivity). assert (A32 : 2 ^ 32 + 2 ^ 31 < 2 ^ 64) by (vm_compute; reflexivity).
  rewrite (u64_id (Trap s)) by lia.
  rewrite Varuint64_put by lia. cbn [bind]. rewrite Varuint64_put by lia. cbn [bind].
  rewrite Varuint32_put by lia. cbn [bind]. rewrite Varuint32_too_big; [reflexivity|].
  assert (E : u64 (Result s) = Result s + 2 ^ 64) by (unfold u64; symmetry; apply Zmod_unique with (-1); lia).
  rewrite E. lia.
Qed.

Lemma readVaruint64s_total k : forall r, is_bytes r ->
  readVaruint64s k r = Err \/
  exists l n, readVaruint64s k r = Ok (l, n, skipn n r) /\ length l = k /\ Forall (fun b => 0 <= b < 2 ^ 64) l /\ (n <= length r)%nat.
Proof.
  induction k; intros r H; cbn [readVaruint64s].
  - right. exists [], 0%nat. repeat split; auto. lia.
  - destruct (varuint_total 10 64 r H) as [E|(x & n & E & Hx & Hn & _)]; unfold Varuint64 in *; rewrite E; cbn [bind]; [now left|].
    assert (H' : is_bytes (skipn n r)) by (now apply Forall_skipn).
    destruct (IHk _ H') as [E2|(l & m & E2 & Hl & HF & Hm)]; rewrite E2; cbn [bind]; [now left|].
    right. exists (x :: l), (n + m)%nat. rewrite skipn_skipn. rewrite skipn_length in Hm.
    repeat split; [simpl; lia|constructor; assumption|lia].
Qed.

(* Buffers *)
Definition svcbytes (s : service) : bytes := [len (sname s)] ++ sname s ++ put_uvarint_bytes (len (sbuffer s)).
Definition svc_ok (s : service) : Prop := is_bytes (sname s) /\ is_bytes (sbuffer s) /\ 1 <= len (sname s) <= 127 /\ len (sbuffer s) < 2 ^ 31.
Definition bufcontent (bs : buffers) : bytes :=
  put_uvarint_bytes (len (Input bs)) ++ put_uvarint_bytes (len (Output bs)) ++ put_uvarint_bytes (len (Services bs)) ++
  flat_map svcbytes (Services bs).

Lemma wvarint_ok p k x : 0 <= x < 2 ^ 31 -> (5 <= k)%nat ->
  wvarint (p ++ repeat 0 k, length p) x =
  Ok ((p ++ put_uvarint_bytes x) ++ repeat 0 (k - length (put_uvarint_bytes x)), length (p ++ put_uvarint_bytes x)).
Proof.
  intros H Hk. unfold wvarint. rewrite s32_id by lia. rewrite u64_31 by assumption.
  pose proof (put_len31 x H). apply wput_ok. lia.
Qed.

Lemma u8_id x : 0 <= x < 256 -> u8 x = x.
Proof. intros. unfold u8. now apply Z.mod_small. Qed.

Lemma putServices_ok l : forall p k, Forall svc_ok l -> (max_service_sizes l <= k)%nat ->
  putServices (p ++ repeat 0 k, length p) l =
  Ok ((p ++ flat_map svcbytes l) ++ repeat 0 (k - length (flat_map svcbytes l)), length (p ++ flat_map svcbytes l)) /\
  (length (flat_map svcbytes l) <= max_service_sizes l)%nat.
Proof.
  induction l as [|s l IH]; intros p k H Hk; cbn [putServices flat_map max_service_sizes fold_right].
  - rewrite app_nil_r. cbn [length]. rewrite Nat.sub_0_r. split; [reflexivity|lia].
  - inversion H as [|? ? Hs Hl]; subst. destruct Hs as (H1 & H2 & H3 & H4).
    pose proof (len_nonneg (sbuffer s)). pose proof (put_len31 (len (sbuffer s)) ltac:(lia)).
    cbn [max_service_sizes fold_right] in Hk. fold (max_service_sizes l) in *. unfold MaxLen in *.
    rewrite u8_id by lia.
    rewrite wput_ok by (cbn [length]; lia). cbn [bind].
    rewrite wput_ok by (cbn [length]; lia). cbn [bind].
    rewrite wvarint_ok by (cbn [length]; lia). cbn [bind].
    match goal with |- putServices (?P ++ repeat 0 ?K, _) l = _ /\ _ => destruct (IH P K Hl) as [E E2] end; [cbn [length]; lia|].
    rewrite E. split.
    + match goal with |- Ok (_ ++ repeat 0 ?a, _) = Ok (_ ++ repeat 0 ?b, _) => replace b with a end.
      2:{ unfold svcbytes at 2. rewrite !app_length. cbn [length]. lia. }
      assert (EA : forall X, svcbytes s ++ X = [len (sname s)] ++ sname s ++ put_uvarint_bytes (len (sbuffer s)) ++ X)
        by (intros X; unfold svcbytes; now rewrite <- !app_assoc).
      rewrite <- !app_assoc. rewrite !EA. reflexivity.
    + unfold svcbytes at 1. rewrite !app_length. cbn [length]. lia.
Qed.

Lemma sum_sizes_data l : len (flat_map sbuffer l) = sum_sizes l.
Proof. induction l as [|s l IH]; [reflexivity|]. cbn [flat_map sum_sizes fold_right]. rewrite len_app, IH. reflexivity. Qed.

Lemma flat_svc_len l : Forall svc_ok l ->
  len (flat_map svcbytes l) + sum_sizes l <= fold_right (fun s a => 6 + len (sname s) + len (sbuffer s) + a) 0 l.
Proof.
  induction 1 as [|s l (H1 & H2 & H3 & H4) _ IH]; [vm_compute; discriminate|].
  cbn [flat_map sum_sizes fold_right]. fold (sum_sizes l). rewrite len_app. unfold svcbytes at 1. rewrite !len_app.
  pose proof (len_nonneg (sbuffer s)). pose proof (put_len31 (len (sbuffer s)) ltac:(lia)).
  assert (len (put_uvarint_bytes (len (sbuffer s))) <= 5) by (unfold len; unfold len in *; lia).
  rewrite len_cons, len_nil. lia.
Qed.

Lemma sum_sizes_nonneg l : 0 <= sum_sizes l.
Proof. induction l; cbn [sum_sizes fold_right]; [lia|]. fold (sum_sizes l). pose proof (len_nonneg (sbuffer a)). lia. Qed.

Definition buf_nonempty (bs : buffers) : Prop := Services bs <> [] \/ Input bs <> [] \/ Output bs <> [].

Lemma len_zero {A} (l : list A) : len l = 0 -> l = [].
Proof. destruct l; [reflexivity|]. rewrite len_cons. pose proof (len_nonneg l). lia. Qed.

Lemma makeBuffer_ok bs : buffers_ok bs -> buf_nonempty bs ->
  exists h : bytes, h = 0 :: put_uvarint_bytes (1 + len (str SectionBuffer) + len (bufcontent bs) + len (bufferSectionData bs)) ++
                 [len (str SectionBuffer)] ++ str SectionBuffer ++ bufcontent bs /\
  0 <= 1 + len (str SectionBuffer) + len (bufcontent bs) + len (bufferSectionData bs) < 2 ^ 32 /\
  makeBufferSectionHeader bs = Ok (h, len h + len (bufferSectionData bs)).
Proof.
  intros (HI & HO & LI & LO & LS & HS & HT) HN. eexists. split; [reflexivity|].
  fold svc_ok in HS. change (Forall svc_ok (Services bs)) in HS.
  pose proof (len_nonneg (Input bs)). pose proof (len_nonneg (Output bs)). pose proof (len_nonneg (Services bs)).
  pose proof (put_len31 (len (Input bs)) ltac:(lia)). pose proof (put_len31 (len (Output bs)) ltac:(lia)).
  pose proof (put_len31 (len (Services bs)) ltac:(lia)). pose proof (flat_svc_len _ HS) as HF.
  assert (ED : len (bufferSectionData bs) = len (Input bs) + len (Output bs) + sum_sizes (Services bs)).
  { unfold bufferSectionData. rewrite !len_app, sum_sizes_data. lia. }
  assert (EB : 0 <= 1 + len (str SectionBuffer) + len (bufcontent bs) + len (bufferSectionData bs) < 2 ^ 32).
  { split; [pose proof (len_nonneg (str SectionBuffer)); pose proof (len_nonneg (bufcontent bs)); pose proof (len_nonneg (bufferSectionData bs)); lia|].
    rewrite ED. unfold bufcontent. rewrite !len_app. change (len (str SectionBuffer)) with 11.
    assert (len (put_uvarint_bytes (len (Input bs))) <= 5) by (unfold len; unfold len in *; lia).
    assert (len (put_uvarint_bytes (len (Output bs))) <= 5) by (unfold len; unfold len in *; lia).
    assert (len (put_uvarint_bytes (len (Services bs))) <= 5) by (unfold len; unfold len in *; lia). lia. }
  split; [exact EB|].
  unfold makeBufferSectionHeader.
  assert (EG : (len (Services bs) =? 0) && (len (Input bs) =? 0) && (len (Output bs) =? 0) = false).
  { destruct (Z.eqb_spec (len (Services bs)) 0) as [E1|]; [|reflexivity].
    destruct (Z.eqb_spec (len (Input bs)) 0) as [E2|]; [|reflexivity].
    destruct (Z.eqb_spec (len (Output bs)) 0) as [E3|]; [|reflexivity].
    apply len_zero in E1, E2, E3. exfalso. destruct HN as [HN|[HN|HN]]; auto. }
  rewrite EG. clear EG. rewrite len_str_buffer. unfold MaxLen. change (1 + 5)%nat with 6%nat.
  replace (6 + 1 + 11 + 5 + 5 + 5 + max_service_sizes (Services bs))%nat with (6 + (1 + 11 + 5 + 5 + 5 + max_service_sizes (Services bs)))%nat by lia.
  rewrite <- zrepeat_app. assert (E6 : 6%nat = length (repeat 0 6)) by reflexivity.
  set (K := (1 + 11 + 5 + 5 + 5 + max_service_sizes (Services bs))%nat).
  rewrite E6 at 2. rewrite wput_ok by (cbn [length]; lia). cbn [bind].
  rewrite wput_ok by (rewrite len_str_buffer; cbn [length]; lia). cbn [bind].
  do 3 (rewrite wvarint_ok by (rewrite ?len_str_buffer; cbn [length]; lia); cbn [bind]).
  match goal with |- context [putServices (?P ++ repeat 0 ?K, _) _] => destruct (putServices_ok (Services bs) P K HS) as [E E2] end;
    [rewrite len_str_buffer; cbn [length]; lia|].
  rewrite E. cbn [bind].
  match goal with |- context [putVaruint32Before (?P ++ ?z) 6 ?x] => set (Pb := P) in * end.
  assert (EP : Pb = repeat 0 6 ++ ([len (str SectionBuffer)] ++ str SectionBuffer ++ bufcontent bs)).
  { unfold Pb, bufcontent. rewrite <- !app_assoc. reflexivity. }
  rewrite <- ED.
  set (tot := 1 + len (str SectionBuffer) + len (bufcontent bs) + len (bufferSectionData bs)) in *.
  match goal with |- context [putVaruint32Before _ 6 ?x] => replace x with tot end.
  2:{ pose proof (len_nonneg (bufferSectionData bs)). assert (EL : Z.of_nat (length Pb - 6) = tot - len (bufferSectionData bs)).
      { rewrite EP, !app_length, repeat_length. unfold tot. cbn [length]. unfold len. lia. }
      rewrite EL. pose proof (len_nonneg (str SectionBuffer)). pose proof (len_nonneg (bufcontent bs)).
      rewrite (u32_id (tot - _)) by (unfold tot in *; lia). rewrite (u32_id (len (bufferSectionData bs))) by (unfold tot in *; lia).
      rewrite u32_id by lia. lia. }
  pose proof (put_len32 _ EB) as HL.
  pose proof (frame_ok tot 0 Pb _ (repeat 0 (K - length [u8 (len (str SectionBuffer))] - length (str SectionBuffer) -
      length (put_uvarint_bytes (len (Input bs))) - length (put_uvarint_bytes (len (Output bs))) - length (put_uvarint_bytes (len (Services bs))) -
      length (flat_map svcbytes (Services bs)))) _ EP eq_refl ltac:(lia)) as EF.
  destruct (putVaruint32Before _ 6 tot) as [[pn b]| |]; cbn [bind] in *; try discriminate.
  destruct (putByteBefore b (6 - pn) 0) as [[n b']| |]; cbn [bind] in *; try discriminate.
  rewrite EF. cbn [bind]. reflexivity.
Qed.

Definition svcsize (s : service) : bytes * Z := (sname s, len (sbuffer s)).

Lemma readServices_put l : forall fuel t, Forall svc_ok l -> (length l <= fuel)%nat ->
  readServices fuel (len l) (flat_map svcbytes l ++ t) = Ok (map svcsize l, length (flat_map svcbytes l), t).
Proof.
  induction l as [|s l IH]; intros fuel t H Hf.
  - destruct fuel; reflexivity.
  - inversion H as [|? ? Hs Hl]; subst. destruct Hs as (H1 & H2 & H3 & H4). destruct fuel as [|fuel]; [simpl in Hf; lia|].
    pose proof (len_nonneg l). pose proof (len_nonneg (sbuffer s)).
    cbn [readServices]. rewrite len_cons. destruct (Z.leb_spec (1 + len l) 0); [lia|].
    cbn [flat_map]. assert (EA : forall X, svcbytes s ++ X = len (sname s) :: sname s ++ put_uvarint_bytes (len (sbuffer s)) ++ X)
      by (intros X; unfold svcbytes; rewrite <- !app_assoc; reflexivity).
    rewrite <- !app_assoc, EA.
    destruct (Z.eqb_spec (len (sname s)) 0); [lia|]. unfold maxServiceNameLen.
    destruct (Z.gtb_spec (len (sname s)) 127); [lia|]. cbn [orb].
    assert (EN : Z.to_nat (len (sname s)) = length (sname s)) by (unfold len; apply Nat2Z.id). rewrite EN.
    rewrite (proj2 (Nat.ltb_ge _ _)) by (rewrite app_length; lia).
    rewrite firstn_app_exact by reflexivity. rewrite skipn_app_exact by reflexivity.
    assert (A : 2 ^ 31 < 2 ^ 32) by (vm_compute; reflexivity).
    rewrite Varuint32_put by lia. cbn [bind].
    replace (1 + len l - 1) with (len l) by lia. rewrite IH by (auto; simpl in Hf; lia). cbn [bind].
    f_equal. f_equal. f_equal. rewrite !app_length. unfold svcbytes. rewrite !app_length. cbn [length]. lia.
Qed.

Lemma map_svcsize_sum l : fold_right (fun p a => snd p + a) 0 (map svcsize l) = sum_sizes l.
Proof. induction l as [|s l IH]; [reflexivity|]. cbn [map fold_right sum_sizes]. rewrite IH. reflexivity. Qed.

Lemma flat_svc_count l : Forall svc_ok l -> (length l <= length (flat_map svcbytes l))%nat.
Proof.
  induction 1 as [|s l _ _ IH]; [simpl; lia|]. cbn [flat_map]. rewrite app_length. unfold svcbytes at 1. rewrite !app_length. simpl. lia.
Qed.

Lemma ReadBuffer_ok bs t L : buffers_ok bs -> Z.of_nat (length (bufcontent bs)) + len (bufferSectionData bs) <= L ->
  exists h, ReadBufferSectionHeader (bufcontent bs ++ t) L =
    ([len (Services bs); len (Services bs); len (bufferSectionData bs)], Ok (h, t)) /\
  readLen h = length (bufcontent bs) /\ dataSize h = len (bufferSectionData bs) /\
  inputSize h = len (Input bs) /\ outputSize h = len (Output bs) /\ serviceSizes h = map svcsize (Services bs).
Proof.
  intros (HI & HO & LI & LO & LS & HS & HT) HL. change (Forall svc_ok (Services bs)) in HS.
  pose proof (len_nonneg (Input bs)). pose proof (len_nonneg (Output bs)). pose proof (len_nonneg (Services bs)).
  assert (A : 2 ^ 31 < 2 ^ 32) by (vm_compute; reflexivity).
  assert (ED : len (bufferSectionData bs) = len (Input bs) + len (Output bs) + sum_sizes (Services bs)).
  { unfold bufferSectionData. rewrite !len_app, sum_sizes_data. lia. }
  eexists. unfold ReadBufferSectionHeader, bufcontent at 1. rewrite <- !app_assoc.
  do 3 (rewrite Varuint32_put by lia; cbn [bind]).
  rewrite readServices_put by (try assumption; rewrite app_length; pose proof (flat_svc_count _ HS); lia).
  cbn zeta. rewrite map_svcsize_sum, <- ED.
  assert (EL : (length (put_uvarint_bytes (len (Input bs))) + length (put_uvarint_bytes (len (Output bs))) +
     length (put_uvarint_bytes (len (Services bs))) + length (flat_map svcbytes (Services bs)))%nat = length (bufcontent bs)).
  { unfold bufcontent. rewrite !app_length. lia. }
  rewrite EL. destruct (Z.gtb_spec (Z.of_nat (length (bufcontent bs)) + len (bufferSectionData bs)) L); [lia|].
  split; [reflexivity|]. cbn. auto.
Qed.

Lemma fillServices_ok l : forall t, fillServices (map svcsize l) (flat_map sbuffer l ++ t) = l.
Proof.
  induction l as [|s l IH]; intros t; [reflexivity|]. cbn [map fillServices flat_map svcsize].
  unfold svcsize at 1. assert (EN : Z.to_nat (len (sbuffer s)) = length (sbuffer s)) by (unfold len; apply Nat2Z.id).
  rewrite EN, <- app_assoc, firstn_app_exact, skipn_app_exact, IH by reflexivity. destruct s; reflexivity.
Qed.

Lemma fill_ok h bs : inputSize h = len (Input bs) -> outputSize h = len (Output bs) ->
  serviceSizes h = map svcsize (Services bs) -> fill h (bufferSectionData bs) = bs.
Proof.
  intros E1 E2 E3. unfold fill, bufferSectionData. rewrite E1, E2, E3.
  assert (EN : forall l : bytes, Z.to_nat (len l) = length l) by (intros; unfold len; apply Nat2Z.id). rewrite !EN.
  rewrite !skipn_app_exact, !firstn_app_exact by reflexivity.
  rewrite <- (app_nil_r (flat_map sbuffer (Services bs))), fillServices_ok. destruct bs; reflexivity.
Qed.

(* Untrusted buffer headers. *)
Lemma readServices_total fuel : forall count r, is_bytes r ->
  readServices fuel count r = Err \/
  exists l n, readServices fuel count r = Ok (l, n, skipn n r) /\ Z.of_nat (length l) = Z.max 0 count /\ (n <= length r)%nat /\
    (length l <= n)%nat /\
    Forall (fun p => 1 <= len (fst p) <= 127 /\ 0 <= snd p < 2 ^ 32) l.
Proof.
  induction fuel; intros count r H; cbn [readServices]; destruct (Z.leb_spec count 0).
  - right. exists [], 0%nat. repeat split; simpl; auto; lia.
  - now left.
  - right. exists [], 0%nat. repeat split; simpl; auto; lia.
  - destruct r as [|b r]; [now left|]. inversion H as [|? ? Hb Hr]; subst. unfold is_byte in Hb. unfold maxServiceNameLen.
    destruct (Z.eqb_spec b 0); [now left|]. destruct (Z.gtb_spec b 127); [now left|]. cbn [orb].
    destruct (Nat.ltb_spec (length r) (Z.to_nat b)); [now left|].
    assert (H' : is_bytes (skipn (Z.to_nat b) r)) by (now apply Forall_skipn).
    destruct (varuint_total 5 32 _ H') as [E|(x & n1 & E & Hx & Hn & _)]; unfold Varuint32; rewrite E; cbn [bind]; [now left|].
    assert (H'' : is_bytes (skipn n1 (skipn (Z.to_nat b) r))) by (now apply Forall_skipn).
    destruct (IHfuel (count - 1) _ H'') as [E2|(l & m & E2 & Hl & Hm & Hlm & HF)]; rewrite E2; cbn [bind]; [now left|].
    right. eexists _, (1 + Z.to_nat b + n1 + m)%nat. split.
    + f_equal. f_equal. rewrite !skipn_skipn. cbn [Nat.add skipn]. f_equal. lia.
    + rewrite !skipn_length in *. cbn [length]. repeat split; try lia. constructor; [|exact HF].
      cbn [fst snd]. unfold len. rewrite firstn_length_le by lia. lia.
Qed.

(* Memory section. *)
Lemma makeMemory_ok sz lim : 0 <= sz < 2 ^ 32 -> lim < 2 ^ 48 ->
  makeMemorySection sz lim =
  Ok (let m := put_uvarint_bytes (sz / 2 ^ 16) in
      if lim >=? 0 then let l := put_uvarint_bytes (lim / 2 ^ 16) in [5; 2 + len m + len l; 1; 1] ++ m ++ l
      else [5; 2 + len m; 1; 0] ++ m).
Proof.
  intros Hs Hl. unfold makeMemorySection.
  assert (Hp : 0 <= sz / 2 ^ 16 < 2 ^ 32).
  { split; [apply Z.div_pos; lia|]. apply Z.div_lt_upper_bound; lia. }
  pose proof (put_len32 _ Hp) as HL. rewrite (u32_id (sz / 2 ^ 16)) by assumption.
  destruct (Z.geb_spec lim 0) as [G|G].
  - assert (Hq : 0 <= lim / 2 ^ 16 < 2 ^ 32).
    { split; [apply Z.div_pos; lia|]. apply Z.div_lt_upper_bound; [lia|]. change (2 ^ 16 * 2 ^ 32) with (2 ^ 48). lia. }
    pose proof (put_len32 _ Hq) as HLq. rewrite (u32_id (lim / 2 ^ 16)) by assumption.
    rewrite <- (app_nil_r (repeat 0 14)). rewrite (before_ok 14 _ _ [] eq_refl) by lia. cbn [bind].
    rewrite (before_ok _ _ _ _ eq_refl) by lia. cbn [bind]. rewrite app_nil_r.
    set (m := put_uvarint_bytes (sz / 2 ^ 16)) in *. set (l := put_uvarint_bytes (lim / 2 ^ 16)) in *.
    replace (14 - length l - length m)%nat with (S (S (S (S (10 - length l - length m))))) by lia.
    rewrite byte_before_ok. cbn [bind]. rewrite byte_before_ok. cbn [bind].
    rewrite byte_before_ok. cbn [bind]. rewrite byte_before_ok. cbn [bind].
    rewrite skipn_app_exact by (now rewrite repeat_length). cbn [app]. do 3 f_equal.
    rewrite len_app. cbn [app]. unfold len. rewrite repeat_length. cbn [length]. rewrite app_length. rewrite u8_id by lia. lia.
  - cbn [bind]. rewrite <- (app_nil_r (repeat 0 14)). rewrite (before_ok 14 _ _ [] eq_refl) by lia. cbn [bind]. rewrite app_nil_r.
    set (m := put_uvarint_bytes (sz / 2 ^ 16)) in *.
    replace (14 - length m)%nat with (S (S (S (S (10 - length m))))) by lia.
    rewrite byte_before_ok. cbn [bind]. rewrite byte_before_ok. cbn [bind].
    rewrite byte_before_ok. cbn [bind]. rewrite byte_before_ok. cbn [bind].
    rewrite skipn_app_exact by (now rewrite repeat_length). cbn [app]. do 3 f_equal.
    rewrite len_app. cbn [app]. unfold len. rewrite repeat_length. cbn [length]. rewrite u8_id by lia. lia.
Qed.

(* Signed LEB128. *)
Lemma sleb_put f : forall x, - 64 * 128 ^ Z.of_nat f <= x < 64 * 128 ^ Z.of_nat f -> sleb x (varint_bytes f x).
Proof.
  induction f; intros x H; cbn [varint_bytes];
    pose proof (Z.mod_pos_bound x 128 ltac:(lia)); pose proof (Z.div_mod x 128 ltac:(lia)) as ED;
    destruct (Z.eqb_spec (x / 128) 0); destruct (Z.ltb_spec (x mod 128) 64); cbn [andb orb];
    try (replace x with (x mod 128) at 1 by lia; apply sleb_pos; lia);
    destruct (Z.eqb_spec (x / 128) (-1)); destruct (Z.leb_spec 64 (x mod 128)); cbn [andb];
    try (replace x with (x mod 128 - 128) at 1 by lia; apply sleb_neg; lia); try lia;
    try (exfalso; change (128 ^ Z.of_nat 0) with 1 in H; lia);
    try (rewrite ED at 1; rewrite Z.add_comm; apply sleb_more; [lia|]; apply IHf;
         replace (Z.of_nat (S f)) with (1 + Z.of_nat f) in H by lia; rewrite Z.pow_add_r in H by lia; lia).
Qed.

Lemma varint_len f : forall x n, - 64 * 128 ^ Z.of_nat n <= x < 64 * 128 ^ Z.of_nat n -> (1 <= length (varint_bytes f x) <= S n)%nat.
Proof.
  induction f; intros x n H; cbn [varint_bytes].
  - destruct (_ || _); simpl; lia.
  - destruct (((x / 128 =? 0) && (x mod 128 <? 64)) || ((x / 128 =? -1) && (64 <=? x mod 128))) eqn:E; [simpl; lia|].
    pose proof (Z.mod_pos_bound x 128 ltac:(lia)). pose proof (Z.div_mod x 128 ltac:(lia)).
    destruct n as [|n].
    + change (128 ^ Z.of_nat 0) with 1 in H. exfalso.
      destruct (Z.eqb_spec (x / 128) 0); destruct (Z.ltb_spec (x mod 128) 64); cbn [andb orb] in E; try discriminate;
      destruct (Z.eqb_spec (x / 128) (-1)); destruct (Z.leb_spec 64 (x mod 128)); cbn [andb orb] in E; try discriminate; lia.
    + cbn [length]. specialize (IHf (x / 128) n). cut (1 <= length (varint_bytes f (x / 128)) <= S n)%nat; [lia|]. apply IHf.
      replace (Z.of_nat (S n)) with (1 + Z.of_nat n) in H by lia. rewrite Z.pow_add_r in H by lia. lia.
Qed.

Lemma sleb_64 x : - 2 ^ 63 <= x < 2 ^ 63 -> sleb x (putVarint x) /\ (1 <= length (putVarint x) <= 10)%nat.
Proof.
  intros H. assert (2 ^ 63 < 64 * 128 ^ Z.of_nat 9) by (vm_compute; reflexivity).
  split; [apply sleb_put; lia|apply (varint_len 9 x 9); lia].
Qed.
Lemma sleb_32 x : - 2 ^ 31 <= x < 2 ^ 31 -> sleb x (putVarint x) /\ (1 <= length (putVarint x) <= 5)%nat.
Proof.
  intros H. assert (2 ^ 31 < 2 ^ 63) by (vm_compute; reflexivity). split; [apply sleb_64; lia|].
  assert (2 ^ 31 < 64 * 128 ^ Z.of_nat 4) by (vm_compute; reflexivity). apply (varint_len 9 x 4); lia.
Qed.

(* Global section. *)
Definition const_bytes (t : valtype) (c : Z) : bytes :=
  match t with
  | I32 => [65] ++ putVarint (s32 (u32 c))
  | I64 => [66] ++ putVarint (s64 c)
  | F32 => [67] ++ le 4 (u32 c)
  | F64 => [68] ++ le 8 c
  end ++ [11].
Definition global_bytes (t : globaltype) (c : Z) : bytes := encode_globaltype t ++ const_bytes (gtype t) c.

Lemma const_bytes_ok t c : 0 <= c < 2 ^ 64 -> is_const_expr t c (const_bytes t c) /\ (length (const_bytes t c) <= 12)%nat.
Proof.
  intros H. destruct t; unfold is_const_expr, const_bytes.
  - pose proof (sleb_32 (s32 (u32 c))) as HS. assert (R : - 2 ^ 31 <= s32 (u32 c) < 2 ^ 31).
    { unfold s32. pose proof (Z.mod_pos_bound (u32 c + 2 ^ 31) (2 ^ 32) ltac:(lia)). lia. }
    destruct (HS R) as [S1 S2]. split.
    + exists (s32 (u32 c)), (putVarint (s32 (u32 c))). split; [exact S1|]. split; [unfold len; lia|]. split; [exact R|].
      split; [|reflexivity]. rewrite s32_u32. unfold s32. rewrite Zminus_mod, Zmod_mod, <- Zminus_mod. f_equal. lia.
    + rewrite !app_length. cbn [length]. lia.
  - pose proof (sleb_64 (s64 c)) as HS. assert (R : - 2 ^ 63 <= s64 c < 2 ^ 63).
    { unfold s64. pose proof (Z.mod_pos_bound (c + 2 ^ 63) (2 ^ 64) ltac:(lia)). lia. }
    destruct (HS R) as [S1 S2]. split.
    + exists (s64 c), (putVarint (s64 c)). split; [exact S1|]. split; [unfold len; lia|]. split; [exact R|].
      split; [|reflexivity]. unfold s64. rewrite Zminus_mod, Zmod_mod, <- Zminus_mod.
      replace (c + 2 ^ 63 - 2 ^ 63) with c by lia. apply Z.mod_small. exact H.
    + rewrite !app_length. cbn [length]. lia.
  - split.
    + exists (le 4 (u32 c)). split; [apply le_bytes|]. split; [unfold len; now rewrite length_le|]. split; [|reflexivity].
      rewrite unle_le. change (256 ^ Z.of_nat 4) with (2 ^ 32). unfold u32. apply Zmod_mod.
    + rewrite !app_length, length_le. cbn [length]. lia.
  - split.
    + exists (le 8 c). split; [apply le_bytes|]. split; [unfold len; now rewrite length_le|]. split; [|reflexivity].
      rewrite unle_le. change (256 ^ Z.of_nat 8) with (2 ^ 64). apply Z.mod_small. exact H.
    + rewrite !app_length, length_le. cbn [length]. lia.
Qed.

Lemma global_bytes_ok t c : 0 <= c < 2 ^ 64 -> is_global t c (global_bytes t c) /\ (length (global_bytes t c) <= 14)%nat.
Proof.
  intros H. destruct (const_bytes_ok (gtype t) c H) as [A B]. unfold global_bytes. split.
  - exists (const_bytes (gtype t) c). split; [exact A|]. unfold encode_globaltype, valtype_byte. now destruct (gtype t).
  - rewrite app_length. unfold encode_globaltype. cbn [length]. lia.
Qed.

Fixpoint globals_bytes (ts : list globaltype) (cs : list Z) : bytes :=
  match ts, cs with t :: ts, c :: cs => global_bytes t c ++ globals_bytes ts cs | _, _ => [] end.

Lemma globals_bytes_ok ts : forall cs, length cs = length ts -> Forall (fun c => 0 <= c < 2 ^ 64) cs ->
  are_globals ts cs (globals_bytes ts cs) /\ (length (globals_bytes ts cs) <= 14 * length ts)%nat.
Proof.
  induction ts as [|t ts IH]; intros [|c cs] E H; try discriminate; cbn [globals_bytes].
  - split; [constructor|simpl; lia].
  - inversion H as [|? ? Hc Hcs]; subst. destruct (IH cs ltac:(simpl in E; lia) Hcs) as [A B].
    destruct (global_bytes_ok t c Hc) as [C D]. split; [now constructor|]. rewrite app_length. simpl. simpl in *. lia.
Qed.

Lemma get_le_first c t : 0 <= c < 2 ^ 64 -> get_le 0 8 (le 8 c ++ t) = Ok c.
Proof.
  intros H. unfold get_le. rewrite slice_ok by (rewrite app_length, length_le; lia). cbn [bind skipn].
  rewrite firstn_app_exact by (now rewrite length_le). rewrite unle_le. change (256 ^ Z.of_nat 8) with (2 ^ 64).
  now rewrite Z.mod_small.
Qed.

Lemma putGlobals_ok ts : forall cs p k z, length cs = length ts -> Forall (fun c => 0 <= c < 2 ^ 64) cs -> (14 * length ts <= k)%nat ->
  putGlobals (p ++ repeat 0 k, length p) ts (flat_map (le 8) cs ++ z) =
  Ok ((p ++ globals_bytes ts cs) ++ repeat 0 (k - length (globals_bytes ts cs)), length (p ++ globals_bytes ts cs)).
Proof.
  induction ts as [|t ts IH]; intros [|c cs] p k z E H Hk; try discriminate; cbn [globals_bytes putGlobals].
  - rewrite app_nil_r. cbn [length]. now rewrite Nat.sub_0_r.
  - inversion H as [|? ? Hc Hcs]; subst. cbn [flat_map]. rewrite <- app_assoc, get_le_first by assumption. cbn [bind].
    assert (E8 : skipn 8 (le 8 c ++ flat_map (le 8) cs ++ z) = flat_map (le 8) cs ++ z) by (apply skipn_app_exact; now rewrite length_le).
    rewrite E8. clear E8.
    assert (HT : exists q, wput (p ++ repeat 0 k, length p) (encode_globaltype t) = Ok q /\
       (do w <- match gtype t with
              | I32 => do w <- wput q [65]; wput w (putVarint (s32 (u32 c)))
              | I64 => do w <- wput q [66]; wput w (putVarint (s64 c))
              | F32 => do w <- wput q [67]; wput w (le 4 (u32 c))
              | F64 => do w <- wput q [68]; wput w (le 8 c)
              end; wput w [11]) = Ok ((p ++ global_bytes t c) ++ repeat 0 (k - length (global_bytes t c)), length (p ++ global_bytes t c))).
    { destruct (const_bytes_ok (gtype t) c Hc) as [_ B]. cbn [length] in Hk.
      assert (L2 : length (encode_globaltype t) = 2%nat) by reflexivity.
      eexists. split; [apply wput_ok; lia|]. unfold global_bytes.
      assert (G : forall o v K P, (1 + length v + 1 <= K)%nat ->
        (do w <- (do w <- wput (P ++ repeat 0 K, length P) [o]; wput w v); wput w [11]) =
        Ok ((P ++ ([o] ++ v) ++ [11]) ++ repeat 0 (K - length (([o] ++ v) ++ [11])), length (P ++ ([o] ++ v) ++ [11]))).
      { intros o v K P HK. rewrite wput_ok by (cbn [length]; lia). cbn [bind]. rewrite wput_ok by (cbn [length]; lia). cbn [bind].
        rewrite wput_ok by (cbn [length]; lia). rewrite !app_length. cbn [length].
        replace (K - 1 - length v - 1)%nat with (K - (1 + length v + 1))%nat by lia.
        rewrite <- !app_assoc. match goal with |- Ok (?a, ?b) = Ok (?c, ?d) => replace b with d by lia end. reflexivity. }
      unfold const_bytes in *. destruct (gtype t); rewrite !app_length in B; cbn [length] in B; rewrite G by lia;
        (match goal with |- Ok (_ ++ repeat 0 ?a, _) = Ok (_ ++ repeat 0 ?b, _) =>
           replace a with b by (rewrite !app_length, L2; cbn [length]; lia) end);
        rewrite <- !app_assoc; reflexivity. }
    destruct HT as (q & E1 & E2). rewrite E1. cbn [bind].
    match type of E2 with bind ?X _ = _ => destruct X as [w| |] end; cbn [bind] in *; try discriminate.
    rewrite E2. cbn [bind]. destruct (global_bytes_ok t c Hc) as [_ HL]. cbn [length] in Hk.
    rewrite IH; [|simpl in E; lia|assumption|lia]. rewrite app_assoc. f_equal. f_equal. f_equal. f_equal. rewrite !app_length. lia.
Qed.

Lemma makeGlobal_ok ts cs z : ts <> [] -> length cs = length ts -> Forall (fun c => 0 <= c < 2 ^ 64) cs -> len ts < 2 ^ 28 ->
  let payload := put_uvarint_bytes (len ts) ++ globals_bytes ts cs in
  len payload < 2 ^ 32 /\
  makeGlobalSection ts (flat_map (le 8) cs ++ z) = Ok (6 :: put_uvarint_bytes (len payload) ++ payload).
Proof.
  intros HN E H HL payload. assert (EPd : payload = put_uvarint_bytes (len ts) ++ globals_bytes ts cs) by reflexivity. clearbody payload. destruct (globals_bytes_ok ts cs E H) as [_ HB]. pose proof (len_nonneg ts).
  assert (A28 : 2 ^ 28 * 14 + 10 < 2 ^ 32) by (vm_compute; reflexivity).
  assert (H32 : 0 <= len ts < 2 ^ 32) by (change (2 ^ 32) with (2 ^ 28 * 16); lia).
  pose proof (put_len32 _ H32) as HC.
  assert (HP : 0 <= len payload < 2 ^ 32).
  { rewrite EPd, len_app. unfold len in *. lia. }
  pose proof (put_len32 _ HP) as HPL. split; [lia|].
  unfold makeGlobalSection. destruct ts as [|t0 ts0] eqn:Et; [congruence|]. rewrite <- Et in *.
  rewrite <- zrepeat_app. change (repeat 0 11 ++ repeat 0 (length ts * 14), 11%nat) with (repeat 0 11 ++ repeat 0 (length ts * 14), length (repeat 0 11)).
  rewrite putGlobals_ok by (auto; lia). cbn [bind].
  assert (EI : (length (repeat 0%Z 11 ++ globals_bytes ts cs) - 11)%nat = length (globals_bytes ts cs)) by (rewrite app_length, repeat_length; lia).
  rewrite EI. rewrite u32_id by assumption. rewrite <- app_assoc. rewrite (before_ok 11 _ _ _ eq_refl) by lia. cbn [bind].
  set (C := put_uvarint_bytes (len ts)) in *. set (G := globals_bytes ts cs) in *.
  assert (EL : Z.of_nat (length C + length G) = len payload) by (rewrite EPd; unfold len; rewrite app_length; reflexivity).
  rewrite EL, u32_id by lia. rewrite (before_ok _ _ _ _ eq_refl) by lia. cbn [bind].
  set (PL := put_uvarint_bytes (len payload)) in *.
  replace (11 - length C - length PL)%nat with (S (10 - length C - length PL)) by lia.
  rewrite byte_before_ok. cbn [bind].
  match goal with |- slice ?n ?m (?a ++ 6 :: PL ++ C ++ G ++ ?z) = _ =>
    replace (a ++ 6 :: PL ++ C ++ G ++ z) with (a ++ (6 :: PL ++ payload) ++ z) by (rewrite EPd; cbn [app]; now rewrite <- !app_assoc) end.
  apply slice_mid; [now rewrite repeat_length|]. rewrite EPd. cbn [length]. rewrite !app_length. lia.
Qed.

Lemma wput_start K v : (length v <= K)%nat -> wput (repeat 0 K, 0%nat) v = Ok (v ++ repeat 0 (K - length v), length v).
Proof. intros H. exact (wput_ok [] K v H). Qed.

Lemma makeStack_ok n : 0 <= n -> 1 + len (str SectionStack) + n < 2 ^ 32 ->
  makeStackSectionHeader n =
  Ok (0 :: put_uvarint_bytes (1 + len (str SectionStack) + n) ++ [len (str SectionStack)] ++ str SectionStack).
Proof.
  intros H0 H. unfold makeStackSectionHeader. pose proof (len_nonneg (str SectionStack)).
  assert (A : 2 ^ 32 < 2 ^ 64) by (vm_compute; reflexivity).
  assert (HR : 0 <= 1 + len (str SectionStack) + n < 2 ^ 32) by lia. pose proof (put_len32 _ HR) as HL.
  replace (Z.of_nat (1 + length (str SectionStack)) + n) with (1 + len (str SectionStack) + n) by (unfold len; lia).
  rewrite u64_id by lia. rewrite len_str_stack. cbn [Nat.add].
  rewrite wput_start by (cbn [length]; lia). cbn [bind].
  do 2 (rewrite wput_ok by (rewrite ?len_str_stack; cbn [length]; lia); cbn [bind]).
  rewrite wput_ok by (rewrite ?len_str_stack; cbn [length]; lia). cbn [bind].
  rewrite slice_ok by (rewrite !app_length; lia). cbn [skipn]. rewrite firstn_app_exact by reflexivity.
  rewrite u8_id by (vm_compute; split; [discriminate|reflexivity]). now rewrite <- !app_assoc.
Qed.

Lemma makeData_ok n : 0 <= n -> 10 + n < 2 ^ 32 ->
  makeDataSectionHeader n =
  Ok (11 :: put_uvarint_bytes (5 + len (put_uvarint_bytes n) + n) ++ [1; 0; 65; 0; 11] ++ put_uvarint_bytes n).
Proof.
  intros H0 H. unfold makeDataSectionHeader. assert (A : 2 ^ 32 < 2 ^ 64) by (vm_compute; reflexivity).
  pose proof (put_len32 n ltac:(lia)) as HN. rewrite u64_id by lia.
  change (repeat 0 (6 + 10), 6%nat) with (repeat 0 6 ++ repeat 0 10, length (repeat 0 6)).
  rewrite wput_ok by (cbn [length]; lia). cbn [bind]. rewrite wput_ok by (cbn [length]; lia). cbn [bind].
  match goal with |- context [putVaruint32Before (?P ++ _) 6 _] => set (Pb := P) end.
  assert (EP : Pb = repeat 0 6 ++ ([1; 0; 65; 0; 11] ++ put_uvarint_bytes n)) by (unfold Pb; now rewrite <- app_assoc).
  match goal with |- context [putVaruint32Before _ 6 (u32 ?x)] => replace x with (5 + len (put_uvarint_bytes n) + n) end.
  2:{ rewrite EP, !app_length, repeat_length. cbn [length]. unfold len. lia. }
  assert (HR : 0 <= 5 + len (put_uvarint_bytes n) + n < 2 ^ 32) by (unfold len; lia). pose proof (put_len32 _ HR).
  rewrite u32_id by assumption. apply frame_ok; [exact EP|reflexivity|lia].
Qed.

Lemma makeExport_ok n : 0 <= n -> 1 + len (str SectionExport) + n < 2 ^ 32 ->
  makeExportSectionWrapFrame n =
  Ok (0 :: put_uvarint_bytes (1 + len (str SectionExport) + n) ++ [len (str SectionExport)] ++ str SectionExport).
Proof.
  intros H0 H. unfold makeExportSectionWrapFrame. pose proof (len_nonneg (str SectionExport)).
  assert (HR : 0 <= 1 + len (str SectionExport) + n < 2 ^ 32) by lia. pose proof (put_len32 _ HR) as HL.
  rewrite (u32_id n) by lia.
  replace (Z.of_nat (1 + length (str SectionExport)) + n) with (1 + len (str SectionExport) + n) by (unfold len; lia).
  rewrite u32_id by lia. rewrite len_str_export.
  change (repeat 0 (6 + (1 + 11)), 6%nat) with (repeat 0 6 ++ repeat 0 12, length (repeat 0 6)).
  rewrite wput_ok by (cbn [length]; lia). cbn [bind]. rewrite wput_ok by (rewrite len_str_export; cbn [length]; lia). cbn [bind].
  apply frame_ok; [now rewrite <- app_assoc|reflexivity|lia].
Qed.
