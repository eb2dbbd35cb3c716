From Coq Require Import Znumtheory.
From Verif Require Import BaseLemmas StreamState WriteStream.

Definition pow2 (sz : Z) : Prop := exists k, 0 <= k <= 31 /\ sz = 2 ^ k.

Lemma pow2_bounds sz : pow2 sz -> 1 <= sz <= 2 ^ 31 /\ (sz | 2 ^ 32).
Proof.
  intros (k & Hk & ->). split.
  - split; [pose proof (Z.pow_pos_nonneg 2 k); lia|]. apply Z.pow_le_mono_r; lia.
  - exists (2 ^ (32 - k)). rewrite <- Z.pow_add_r by lia. f_equal. lia.
Qed.

Lemma masked_mod sz x : pow2 sz -> 0 <= x -> masked sz x = x mod sz.
Proof.
  intros HP Hx. destruct (pow2_bounds sz HP) as [HB _]. destruct HP as (k & Hk & ->). unfold masked.
  rewrite (u32_id (2 ^ k)) by lia. rewrite u32_id by lia.
  replace (2 ^ k - 1) with (Z.ones k) by (rewrite Z.ones_equiv; lia). apply Z.land_ones. lia.
Qed.

Lemma u32_mod_size sz x : pow2 sz -> u32 x mod sz = x mod sz.
Proof.
  intros HP. destruct (pow2_bounds sz HP) as [HB HD]. unfold u32. symmetry. apply Zmod_div_mod; [lia|lia|assumption].
Qed.

Lemma nth_skipn {A} (l : list A) n i d : nth i (skipn n l) d = nth (n + i) l d.
Proof. revert l; induction n as [|n IH]; intros l; cbn [skipn Nat.add]; [reflexivity|]. destruct l; [now destruct i|]. apply IH. Qed.

Lemma nth_copy j off n (d b : bytes) : (off + n <= length b)%nat -> (n <= length d)%nat ->
  nth j (firstn off b ++ firstn n d ++ skipn (off + n) b) 0 =
  if Nat.ltb j off then nth j b 0 else if Nat.ltb j (off + n) then nth (j - off) d 0 else nth j b 0.
Proof.
  intros H1 H2. destruct (Nat.ltb_spec j off).
  - rewrite app_nth1 by (rewrite firstn_length; lia).
    rewrite <- (firstn_skipn off b) at 2. rewrite app_nth1 by (rewrite firstn_length; lia). reflexivity.
  - rewrite app_nth2 by (rewrite firstn_length; lia). rewrite firstn_length, Nat.min_l by lia.
    destruct (Nat.ltb_spec j (off + n)).
    + rewrite app_nth1 by (rewrite firstn_length; lia).
      rewrite <- (firstn_skipn n d) at 2. rewrite app_nth1 by (rewrite firstn_length; lia). reflexivity.
    + rewrite app_nth2 by (rewrite firstn_length; lia). rewrite firstn_length, Nat.min_l by lia.
      rewrite <- (firstn_skipn (off + n) b) at 2. rewrite app_nth2 by (rewrite firstn_length; lia).
      rewrite firstn_length, Nat.min_l by lia. f_equal. lia.
Qed.

Lemma len_copy off n (d b : bytes) : (off + n <= length b)%nat -> (n <= length d)%nat ->
  length (firstn off b ++ firstn n d ++ skipn (off + n) b) = length b.
Proof. intros. rewrite !app_length, !firstn_length, skipn_length. lia. Qed.

(* nth at an integer index *)
Definition at_ (l : bytes) (i : Z) : Z := nth (Z.to_nat i) l 0.

Lemma len_write_ring sz off d b : len b = sz -> 0 <= off < sz -> len d <= sz -> len (write_ring sz off d b) = sz.
Proof.
  intros HB HO HD. pose proof (len_nonneg d). unfold write_ring, copy_ring, len in *.
  set (n := Z.min (sz - off) (Z.of_nat (length d))).
  destruct (skipn (Z.to_nat n) d) as [|x t] eqn:E.
  - rewrite len_copy; lia.
  - rewrite len_copy; rewrite <- ?E, ?skipn_length, ?len_copy; lia.
Qed.

Lemma at_write_ring sz off d b j : len b = sz -> 0 <= off < sz -> len d <= sz -> 0 <= j < sz ->
  at_ (write_ring sz off d b) j =
  if (j - off) mod sz <? len d then at_ d ((j - off) mod sz) else at_ b j.
Proof.
  intros HB HO HD HJ. pose proof (len_nonneg d). unfold at_, write_ring, copy_ring, len in *.
  set (n := Z.min (sz - off) (Z.of_nat (length d))) in *.
  assert (HM : (j - off) mod sz = if off <=? j then j - off else j - off + sz).
  { destruct (off <=? j) eqn:E; [apply Z.mod_small; lia|].
    rewrite <- (Z.mod_add (j - off) 1 sz) by lia. rewrite Z.mul_1_l. apply Z.mod_small. lia. }
  rewrite HM. clear HM.
  destruct (skipn (Z.to_nat n) d) as [|x t] eqn:E.
  - assert (length d <= Z.to_nat n)%nat.
    { pose proof (f_equal (@length Z) E) as EL. rewrite skipn_length in EL. cbn in EL. lia. }
    rewrite nth_copy by lia.
    destruct (Nat.ltb_spec (Z.to_nat j) (Z.to_nat off)), (off <=? j) eqn:E1; try lia.
    + replace (j - off + sz <? Z.of_nat (length d)) with false by lia. reflexivity.
    + destruct (Nat.ltb_spec (Z.to_nat j) (Z.to_nat off + Z.to_nat n)), (j - off <? Z.of_nat (length d)) eqn:E2; try lia.
      * f_equal. lia.
  - assert (HT : length (x :: t) = (length d - Z.to_nat n)%nat) by (rewrite <- E; apply skipn_length).
    assert (n = sz - off) by (cbn [length] in HT; lia).
    rewrite nth_copy; [|rewrite len_copy; lia|lia].
    change (Z.to_nat 0) with 0%nat. rewrite Nat.sub_0_r.
    replace (Nat.ltb (Z.to_nat j) 0) with false by (symmetry; apply Nat.ltb_ge; lia).
    destruct (Nat.ltb_spec (Z.to_nat j) (0 + Z.to_nat (Z.min (sz - 0) (Z.of_nat (length (x :: t)))))) as [HJ2|HJ2].
    + rewrite <- E.
      destruct (off <=? j) eqn:E1; [lia|].
      replace (j - off + sz <? Z.of_nat (length d)) with true by lia.
      rewrite nth_skipn. f_equal. lia.
    + rewrite nth_copy by lia.
      destruct (Nat.ltb_spec (Z.to_nat j) (Z.to_nat off)), (off <=? j) eqn:E1; try lia.
      * replace (j - off + sz <? Z.of_nat (length d)) with false by lia. reflexivity.
      * destruct (Nat.ltb_spec (Z.to_nat j) (Z.to_nat off + Z.to_nat n)), (j - off <? Z.of_nat (length d)) eqn:E2; try lia.
        f_equal. lia.
Qed.

(* Lists as functions of integer indices. *)
Lemma at_ext a b : len a = len b -> (forall i, 0 <= i < len a -> at_ a i = at_ b i) -> a = b.
Proof.
  intros HL HE. apply (nth_ext a b 0 0); [unfold len in HL; lia|]. intros n Hn.
  specialize (HE (Z.of_nat n)). unfold at_, len in HE. rewrite Nat2Z.id in HE. apply HE. lia.
Qed.

Lemma at_app1 a b i : 0 <= i < len a -> at_ (a ++ b) i = at_ a i.
Proof. intros H. unfold at_, len in *. apply app_nth1. lia. Qed.
Lemma at_app2 a b i : len a <= i -> at_ (a ++ b) i = at_ b (i - len a).
Proof. intros H. unfold at_, len in *. rewrite app_nth2 by lia. f_equal. lia. Qed.

Lemma len_sub_slice lo hi b : 0 <= lo <= hi -> hi <= len b -> len (sub_slice lo hi b) = hi - lo.
Proof. intros H1 H2. unfold sub_slice, len in *. rewrite firstn_length, skipn_length. lia. Qed.

Lemma nth_firstn {A} (l : list A) n i d : (i < n)%nat -> nth i (firstn n l) d = nth i l d.
Proof. revert l i; induction n as [|n IH]; intros l i H; [lia|]. destruct l; [reflexivity|]. destruct i; [reflexivity|]. cbn. apply IH. lia. Qed.

Lemma at_sub_slice lo hi b i : 0 <= lo -> 0 <= i < hi - lo -> at_ (sub_slice lo hi b) i = at_ b (lo + i).
Proof. intros H1 H2. unfold at_, sub_slice. rewrite nth_firstn by lia. rewrite nth_skipn. f_equal. lia. Qed.

Lemma at_firstn b n i : 0 <= i < n -> at_ (firstn (Z.to_nat n) b) i = at_ b i.
Proof. intros H. unfold at_. apply nth_firstn. lia. Qed.
Lemma at_skipn b n i : 0 <= n -> 0 <= i -> at_ (skipn (Z.to_nat n) b) i = at_ b (n + i).
Proof. intros H1 H2. unfold at_. rewrite nth_skipn. f_equal. lia. Qed.

Lemma mod_distinct sz a b : 0 < b - a < sz -> a mod sz <> b mod sz.
Proof.
  intros H E. assert (H0 : (b - a) mod sz = 0) by (rewrite Zminus_mod, E, Z.sub_diag; apply Z.mod_0_l; lia).
  rewrite Z.mod_small in H0 by lia. lia.
Qed.
