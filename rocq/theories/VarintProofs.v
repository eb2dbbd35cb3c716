From Verif Require Import BaseLemmas Varint.

Lemma uvarint_roundtrip_gen : forall k x i acc t,
  (i + k = 9)%nat -> 0 <= x < 2 ^ (64 - 7 * Z.of_nat i) ->
  0 <= acc < 2 ^ (7 * Z.of_nat i) ->
  uvarint_loop (uvarint_bytes k x ++ t) i acc (7 * Z.of_nat i) =
    (acc + x * 2 ^ (7 * Z.of_nat i), Z.of_nat (i + length (uvarint_bytes k x))).
Proof.
  induction k as [|k IH]; intros x i acc t Hik Hx Hacc.
  - assert (i = 9)%nat as -> by lia. change (64 - 7 * Z.of_nat 9) with 1 in Hx.
    change (2 ^ 1) with 2 in Hx. cbn [uvarint_bytes app uvarint_loop length].
    replace (x <? 128) with true by (symmetry; lia).
    replace (x >? 1) with false by (symmetry; lia).
    cbn [Nat.ltb Nat.leb Nat.eqb andb orb]. f_equal.
    apply u64_id. change (7 * Z.of_nat 9) with 63 in *.
    change (2 ^ 64) with (2 * 2 ^ 63). nia.
  - cbn [uvarint_bytes]. pose proof (Z.pow_pos_nonneg 2 (7 * Z.of_nat i) ltac:(lia) ltac:(lia)) as HP.
    assert (2 ^ 64 = 2 ^ (64 - 7 * Z.of_nat i) * 2 ^ (7 * Z.of_nat i)) as H64
      by (rewrite <- Z.pow_add_r by lia; f_equal; lia).
    destruct (x >=? 128) eqn:Hge.
    + cbn [app uvarint_loop length].
      replace (x mod 128 + 128 <? 128) with false by (symmetry; lia).
      replace ((x mod 128 + 128) mod 128) with (x mod 128) by lia.
      assert (u64 (acc + x mod 128 * 2 ^ (7 * Z.of_nat i)) = acc + x mod 128 * 2 ^ (7 * Z.of_nat i)) as ->.
      { apply u64_id. split; [nia|]. rewrite H64.
        assert (x mod 128 <= x) by lia. nia. }
      replace (7 * Z.of_nat i + 7) with (7 * Z.of_nat (S i)) by lia.
      assert (2 ^ (7 * Z.of_nat (S i)) = 128 * 2 ^ (7 * Z.of_nat i)) as HS.
      { replace (7 * Z.of_nat (S i)) with (7 + 7 * Z.of_nat i) by lia. rewrite Z.pow_add_r by lia. reflexivity. }
      rewrite IH.
      * f_equal; [|lia]. rewrite HS. pose proof (Z.div_mod x 128 ltac:(lia)). nia.
      * lia.
      * split; [apply Z.div_pos; lia|]. apply Z.div_lt_upper_bound; [lia|].
        replace (64 - 7 * Z.of_nat i) with (7 + (64 - 7 * Z.of_nat (S i))) in Hx by lia.
        rewrite Z.pow_add_r in Hx by lia. change (2 ^ 7) with 128 in Hx. lia.
      * rewrite HS. pose proof (Z.mod_pos_bound x 128 ltac:(lia)). split; nia.
    + cbn [app uvarint_loop length].
      replace (x <? 128) with true by (symmetry; lia).
      replace (Nat.ltb 9 i) with false by (symmetry; apply Nat.ltb_ge; lia).
      replace (Nat.eqb i 9) with false by (symmetry; apply Nat.eqb_neq; lia).
      cbn [andb orb]. f_equal; [|lia]. apply u64_id. rewrite H64. nia.
Qed.

Lemma uvarint_roundtrip x t : 0 <= x < 2 ^ 64 ->
  Uvarint (put_uvarint_bytes x ++ t) = (x, len (put_uvarint_bytes x)).
Proof.
  intros H. unfold Uvarint, put_uvarint_bytes.
  pose proof (uvarint_roundtrip_gen 9 x 0 0 t eq_refl) as E.
  change (7 * Z.of_nat 0) with 0 in E. change (64 - 0) with 64 in E.
  rewrite E; [|exact H|change (2 ^ 0) with 1; lia]. unfold len. f_equal. lia.
Qed.

Lemma uvarint_bytes_are_bytes k : forall x, 0 <= x < 128 * 2 ^ (7 * Z.of_nat k) -> is_bytes (uvarint_bytes k x).
Proof.
  induction k as [|k IH]; intros x Hx; cbn [uvarint_bytes].
  - constructor; [|constructor]. unfold is_byte. change (2 ^ (7 * Z.of_nat 0)) with 1 in Hx. lia.
  - destruct (x >=? 128) eqn:H.
    + constructor; [unfold is_byte; lia|]. apply IH.
      replace (7 * Z.of_nat (S k)) with (7 + 7 * Z.of_nat k) in Hx by lia.
      rewrite Z.pow_add_r in Hx by lia. change (2 ^ 7) with 128 in Hx.
      split; [apply Z.div_pos; lia|]. apply Z.div_lt_upper_bound; lia.
    + constructor; [|constructor]. unfold is_byte. lia.
Qed.

Lemma put_uvarint_is_bytes x : 0 <= x < 2 ^ 64 -> is_bytes (put_uvarint_bytes x).
Proof. intros H. apply uvarint_bytes_are_bytes. change (7 * Z.of_nat 9) with 63. change (128 * 2 ^ 63) with (64 * 2 ^ 64). lia. Qed.

(* Length: minimal number of 7-bit groups. *)
Lemma uvarint_len_gen k : forall x n, 0 <= x < 2 ^ (7 * Z.of_nat n) -> (1 <= n)%nat ->
  (length (uvarint_bytes k x) <= n)%nat.
Proof.
  induction k as [|k IH]; intros x n Hx Hn; cbn [uvarint_bytes]; [cbn; lia|].
  destruct (x >=? 128) eqn:H; cbn [length]; [|lia].
  destruct n as [|[|n]]; [lia| |].
  - change (7 * Z.of_nat 1) with 7 in Hx. change (2 ^ 7) with 128 in Hx. lia.
  - specialize (IH (x / 128) (S n)).
    replace (7 * Z.of_nat (S (S n))) with (7 + 7 * Z.of_nat (S n)) in Hx by lia.
    rewrite Z.pow_add_r in Hx by lia. change (2 ^ 7) with 128 in Hx.
    assert (0 <= x / 128 < 2 ^ (7 * Z.of_nat (S n))) by (split; [apply Z.div_pos; lia|apply Z.div_lt_upper_bound; lia]).
    specialize (IH H0 ltac:(lia)). lia.
Qed.

Lemma uvarint_len_pos k x : (1 <= length (uvarint_bytes k x))%nat.
Proof. destruct k; cbn [uvarint_bytes]; [cbn; lia|]. destruct (x >=? 128); cbn [length]; lia. Qed.

Lemma put_len31 x : 0 <= x < 2 ^ 31 -> (1 <= length (put_uvarint_bytes x) <= 5)%nat.
Proof.
  intros H. split; [apply uvarint_len_pos|]. apply uvarint_len_gen; [|lia].
  change (7 * Z.of_nat 5) with 35. assert (2 ^ 31 < 2 ^ 35) by (vm_compute; reflexivity). lia.
Qed.

Lemma put_at_0 v d : (length v <= length d)%nat -> put_at 0 v d = Ok (v ++ skipn (length v) d).
Proof. intros H. rewrite put_at_ok by lia. reflexivity. Qed.

Lemma u64_31 x : 0 <= x < 2 ^ 31 -> u64 x = x.
Proof. intros H. apply u64_id. assert (2 ^ 31 < 2 ^ 64) by (vm_compute; reflexivity). lia. Qed.

Lemma Len_ok x : 0 <= x < 2 ^ 31 -> Len x = Ok (len (put_uvarint_bytes x)).
Proof.
  intros H. unfold Len, PutUvarint. rewrite u64_31 by assumption. pose proof (put_len31 x H).
  rewrite put_at_0 by (rewrite repeat_length; unfold MaxLen; lia). reflexivity.
Qed.

Lemma Put_ok x dest : 0 <= x < 2 ^ 31 -> (length (put_uvarint_bytes x) <= length dest)%nat ->
  Put dest x = Ok (put_uvarint_bytes x, skipn (length (put_uvarint_bytes x)) dest).
Proof.
  intros H HL. unfold Put, PutUvarint. rewrite u64_31 by assumption. rewrite put_at_0 by assumption.
  cbn [bind]. unfold len. rewrite Nat2Z.id. rewrite firstn_app_exact, skipn_app_exact by reflexivity. reflexivity.
Qed.

Lemma Put_short x dest : 0 <= x < 2 ^ 31 -> (length dest < length (put_uvarint_bytes x))%nat -> Put dest x = Panic.
Proof.
  intros H HL. unfold Put, PutUvarint. rewrite u64_31 by assumption. unfold put_at.
  destruct (Nat.leb_spec (0 + length (put_uvarint_bytes x)) (length dest)); [lia|reflexivity].
Qed.

Lemma Scan_put x t : 0 <= x < 2 ^ 31 -> Scan (put_uvarint_bytes x ++ t) = Ok (x, t).
Proof.
  intros H. unfold Scan. rewrite uvarint_roundtrip by (assert (2 ^ 31 < 2 ^ 64) by (vm_compute; reflexivity); lia).
  pose proof (put_len31 x H). unfold len.
  replace (Z.of_nat (length (put_uvarint_bytes x)) <=? 0) with false by (symmetry; lia).
  replace (x >? 2147483647) with false by (symmetry; change 2147483647 with (2 ^ 31 - 1); lia).
  rewrite Nat2Z.id, skipn_app_exact by reflexivity. rewrite s32_id by lia. reflexivity.
Qed.

(* Decoder on arbitrary input. *)
Lemma uvarint_loop_bounds buf : forall i x s v n,
  is_bytes buf -> 0 <= x < 2 ^ 64 ->
  uvarint_loop buf i x s = (v, n) -> 0 <= v < 2 ^ 64 /\ n <= Z.of_nat i + len buf /\ (0 < n -> Z.of_nat i < n).
Proof.
  induction buf as [|b t IH]; intros i x s v n HB Hx E; cbn [uvarint_loop] in E.
  - injection E as <- <-. unfold len; cbn. lia.
  - inversion HB as [|? ? Hb Ht]; subst. rewrite len_cons.
    destruct (b <? 128).
    + destruct (_ || _).
      * injection E as <- <-. pose proof (len_nonneg t). lia.
      * injection E as <- <-. pose proof (u64_bound (x + b * 2 ^ s)). pose proof (len_nonneg t). lia.
    + apply IH in E; [|assumption|apply u64_bound]. lia.
Qed.

Lemma Scan_total src : is_bytes src ->
  Scan src = Err \/
  exists v k, Scan src = Ok (v, skipn k src) /\ 0 <= v <= 2147483647 /\ (1 <= k <= length src)%nat.
Proof.
  intros HB. unfold Scan. destruct (Uvarint src) as [x n] eqn:E.
  apply uvarint_loop_bounds in E; [|assumption|lia]. destruct E as (Hx & Hn & Hi).
  destruct (n <=? 0) eqn:H1; [now left|]. destruct (x >? 2147483647) eqn:H2; [now left|].
  right. exists x, (Z.to_nat n). rewrite s32_id by lia. unfold len in Hn.
  repeat split; try reflexivity; lia.
Qed.

(* Truncated encodings are rejected. *)
Lemma uvarint_trunc k : forall x i acc s n, (n < length (uvarint_bytes k x))%nat -> 0 <= x ->
  uvarint_loop (firstn n (uvarint_bytes k x)) i acc s = (0, 0).
Proof.
  induction k as [|k IH]; intros x i acc s n Hn Hx; cbn [uvarint_bytes] in *.
  - cbn [length] in Hn. assert (n = 0)%nat as -> by lia. reflexivity.
  - destruct (x >=? 128) eqn:H; cbn [length] in Hn.
    + destruct n as [|n]; [reflexivity|]. cbn [firstn uvarint_loop].
      replace (x mod 128 + 128 <? 128) with false by (symmetry; lia).
      apply IH; [lia|apply Z.div_pos; lia].
    + assert (n = 0)%nat as -> by lia. reflexivity.
Qed.

Lemma Scan_trunc x n : 0 <= x -> (n < length (put_uvarint_bytes x))%nat -> Scan (firstn n (put_uvarint_bytes x)) = Err.
Proof. intros Hx Hn. unfold Scan, Uvarint, put_uvarint_bytes in *. now rewrite uvarint_trunc. Qed.


Lemma Scan_too_big x t : 2 ^ 31 <= x < 2 ^ 64 -> Scan (put_uvarint_bytes x ++ t) = Err.
Proof.
  intros H. unfold Scan. rewrite uvarint_roundtrip by lia. unfold len.
  pose proof (uvarint_len_pos 9 x) as HP. fold (put_uvarint_bytes x) in HP.
  replace (Z.of_nat (length (put_uvarint_bytes x)) <=? 0) with false by (symmetry; lia).
  replace (x >? 2147483647) with true; [reflexivity|]. symmetry. change 2147483647 with (2 ^ 31 - 1). lia.
Qed.
