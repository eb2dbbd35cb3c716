(* BaseLemmas.v: lemmas about Base.v. *)
From Verif Require Export Base.
Ltac Zify.zify_post_hook ::= Z.div_mod_to_equations.

Lemma length_le n v : length (le n v) = n.
Proof. revert v; induction n as [|n IH]; intros v; cbn [le length]; [reflexivity|]. now rewrite IH. Qed.

Lemma le_bytes n v : is_bytes (le n v).
Proof.
  revert v; induction n as [|n IH]; intros v; cbn [le]; constructor; [|apply IH].
  unfold is_byte. apply Z.mod_pos_bound. lia.
Qed.

Lemma unle_le n v : unle (le n v) = v mod 256 ^ Z.of_nat n.
Proof.
  revert v; induction n as [|n IH]; intros v; cbn [le unle].
  - change (256 ^ Z.of_nat 0) with 1. now rewrite Z.mod_1_r.
  - rewrite IH. rewrite Nat2Z.inj_succ, Z.pow_succ_r by lia.
    rewrite (Z.rem_mul_r v 256) by (try apply Z.pow_nonzero; try apply Z.pow_pos_nonneg; lia).
    lia.
Qed.

Lemma le_unle l : is_bytes l -> le (length l) (unle l) = l.
Proof.
  intros H; induction H as [|b t Hb Ht IH]; cbn [le unle length]; [reflexivity|].
  unfold is_byte in Hb.
  replace ((b + 256 * unle t) mod 256) with b by lia.
  replace ((b + 256 * unle t) / 256) with (unle t) by lia.
  now rewrite IH.
Qed.

Lemma unle_bound l : is_bytes l -> 0 <= unle l < 256 ^ Z.of_nat (length l).
Proof.
  intros H; induction H as [|b t Hb Ht IH]; cbn [unle length].
  - change (256 ^ Z.of_nat 0) with 1. lia.
  - rewrite Nat2Z.inj_succ, Z.pow_succ_r by lia. unfold is_byte in Hb. lia.
Qed.

Lemma len_nonneg {A} (l : list A) : 0 <= len l.
Proof. unfold len; lia. Qed.

Lemma len_app {A} (a b : list A) : len (a ++ b) = len a + len b.
Proof. unfold len. rewrite app_length. lia. Qed.

Lemma len_nil {A} : len (@nil A) = 0.
Proof. reflexivity. Qed.

Lemma len_cons {A} (x : A) l : len (x :: l) = 1 + len l.
Proof. unfold len; cbn [length]; lia. Qed.

Lemma slice_ok off n b : (off + n <= length b)%nat -> slice off n b = Ok (firstn n (skipn off b)).
Proof. intros H; unfold slice. destruct (Nat.leb_spec (off + n) (length b)); [reflexivity|lia]. Qed.

Lemma put_at_ok off v b : (off + length v <= length b)%nat ->
  put_at off v b = Ok (firstn off b ++ v ++ skipn (off + length v) b).
Proof. intros H; unfold put_at. destruct (Nat.leb_spec (off + length v) (length b)); [reflexivity|lia]. Qed.

Lemma put_at_length off v b b' : put_at off v b = Ok b' -> length b' = length b.
Proof.
  unfold put_at. destruct (Nat.leb_spec (off + length v) (length b)) as [H|H]; [|discriminate].
  intros E; injection E as <-. rewrite !app_length, firstn_length, skipn_length. lia.
Qed.

Lemma firstn_app_exact {A} (a b : list A) n : n = length a -> firstn n (a ++ b) = a.
Proof. intros ->. rewrite firstn_app, Nat.sub_diag, firstn_all. cbn. apply app_nil_r. Qed.

Lemma skipn_app_exact {A} (a b : list A) n : n = length a -> skipn n (a ++ b) = b.
Proof. intros ->. rewrite skipn_app, Nat.sub_diag, skipn_all. reflexivity. Qed.

Lemma firstn_app_le {A} (a b : list A) n : (n <= length a)%nat -> firstn n (a ++ b) = firstn n a.
Proof. intros H. rewrite firstn_app. replace (n - length a)%nat with 0%nat by lia. cbn. apply app_nil_r. Qed.

Lemma skipn_app_le {A} (a b : list A) n : (n <= length a)%nat -> skipn n (a ++ b) = skipn n a ++ b.
Proof. intros H. rewrite skipn_app. replace (n - length a)%nat with 0%nat by lia. reflexivity. Qed.

Lemma skipn_skipn {A} (l : list A) n m : skipn n (skipn m l) = skipn (m + n) l.
Proof.
  revert l; induction m as [|m IH]; intros l; cbn [skipn Nat.add]; [reflexivity|].
  destruct l; [now rewrite !skipn_nil|]. apply IH.
Qed.

(* Reading the region just written. *)
Lemma slice_put_same off v b b' n : put_at off v b = Ok b' -> n = length v -> slice off n b' = Ok v.
Proof.
  intros E ->. pose proof (put_at_length _ _ _ _ E) as HL.
  unfold put_at in E. destruct (Nat.leb_spec (off + length v) (length b)) as [H|H]; [|discriminate].
  rewrite slice_ok by lia. injection E as <-.
  rewrite skipn_app_exact by (rewrite firstn_length; lia).
  now rewrite firstn_app_exact.
Qed.

(* Reading a disjoint region is unaffected by a write. *)
Lemma slice_put_other off v b b' o n : put_at off v b = Ok b' ->
  (o + n <= off \/ off + length v <= o)%nat -> slice o n b' = slice o n b.
Proof.
  intros E D. pose proof (put_at_length _ _ _ _ E) as HL.
  unfold put_at in E. destruct (Nat.leb_spec (off + length v) (length b)) as [H|H]; [|discriminate].
  injection E as E. unfold slice. rewrite HL.
  destruct (Nat.leb_spec (o + n) (length b)) as [H'|H']; [|reflexivity]. f_equal.
  destruct D as [D|D].
  - subst b'. rewrite skipn_app_le by (rewrite firstn_length; lia).
    rewrite firstn_app_le by (rewrite skipn_length, firstn_length; lia).
    rewrite skipn_firstn_comm, firstn_firstn. f_equal. lia.
  - subst b'. rewrite app_assoc.
    rewrite skipn_app.
    rewrite skipn_all2 by (rewrite app_length, firstn_length; lia). cbn [app].
    rewrite skipn_skipn. do 2 f_equal. rewrite app_length, firstn_length. lia.
Qed.

Lemma put_at_is_ok off v b : (off + length v <= length b)%nat -> exists b', put_at off v b = Ok b'.
Proof. intros H. eexists. now apply put_at_ok. Qed.

Lemma is_bytes_app a b : is_bytes (a ++ b) <-> is_bytes a /\ is_bytes b.
Proof. unfold is_bytes. apply Forall_app. Qed.

Lemma Forall_firstn {A} (P : A -> Prop) n l : Forall P l -> Forall P (firstn n l).
Proof. revert l; induction n as [|n IH]; intros l H; cbn; [constructor|]. destruct H; constructor; auto. Qed.

Lemma Forall_skipn {A} (P : A -> Prop) n l : Forall P l -> Forall P (skipn n l).
Proof. revert l; induction n as [|n IH]; intros l H; cbn; [assumption|]. destruct H; [constructor|]; auto. Qed.

Lemma put_at_bytes off v b b' : put_at off v b = Ok b' -> is_bytes v -> is_bytes b -> is_bytes b'.
Proof.
  unfold put_at. destruct (Nat.leb _ _); [|discriminate]. intros E Hv Hb; injection E as <-.
  apply is_bytes_app; split; [now apply Forall_firstn|]. apply is_bytes_app; split; [assumption|now apply Forall_skipn].
Qed.

Lemma s32_id x : -2 ^ 31 <= x < 2 ^ 31 -> s32 x = x.
Proof. unfold s32; intros H. rewrite Z.mod_small; lia. Qed.
Lemma s16_id x : -2 ^ 15 <= x < 2 ^ 15 -> s16 x = x.
Proof. unfold s16; intros H. rewrite Z.mod_small; lia. Qed.
Lemma s64_id x : -2 ^ 63 <= x < 2 ^ 63 -> s64 x = x.
Proof. unfold s64; intros H. rewrite Z.mod_small; lia. Qed.
Lemma u32_id x : 0 <= x < 2 ^ 32 -> u32 x = x.
Proof. unfold u32; intros H. now apply Z.mod_small. Qed.
Lemma u64_id x : 0 <= x < 2 ^ 64 -> u64 x = x.
Proof. unfold u64; intros H. now apply Z.mod_small. Qed.
Lemma u16_id x : 0 <= x < 2 ^ 16 -> u16 x = x.
Proof. unfold u16; intros H. now apply Z.mod_small. Qed.
Lemma s32_u32 x : s32 (u32 x) = s32 x.
Proof. unfold s32, u32. rewrite Zplus_mod_idemp_l. reflexivity. Qed.
Lemma s16_u16 x : s16 (u16 x) = s16 x.
Proof. unfold s16, u16. rewrite Zplus_mod_idemp_l. reflexivity. Qed.
Lemma s64_u64 x : s64 (u64 x) = s64 x.
Proof. unfold s64, u64. rewrite Zplus_mod_idemp_l. reflexivity. Qed.
Lemma u32_bound x : 0 <= u32 x < 2 ^ 32.
Proof. unfold u32. apply Z.mod_pos_bound. lia. Qed.
Lemma u64_bound x : 0 <= u64 x < 2 ^ 64.
Proof. unfold u64. apply Z.mod_pos_bound. lia. Qed.
