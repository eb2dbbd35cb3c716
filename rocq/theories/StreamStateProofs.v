From Verif Require Import BaseLemmas Varint VarintProofs StreamState.

(* A state whose fields fit in non-negative int32 and that the "impossible
   state" check accepts. *)
Definition state_ok (s : State) : Prop :=
  0 <= Flags s < 2 ^ 31 /\ 0 <= Subscribed s < 2 ^ 31 /\ len (Data s) < 2 ^ 31 /\
  (has FlagSendReceiving (Flags s) = false -> has FlagReadWriting (Flags s) = false /\ Data s = []).

Definition enc (s : State) : bytes :=
  put_uvarint_bytes (Flags s) ++ put_uvarint_bytes (Subscribed s) ++ put_uvarint_bytes (len (Data s)) ++ Data s.

Lemma u32_31 x : 0 <= x < 2 ^ 31 -> u32 x = x.
Proof. intros H. apply u32_id. lia. Qed.
Lemma s32_31 x : 0 <= x < 2 ^ 31 -> s32 x = x.
Proof. intros H. apply s32_id. lia. Qed.

Lemma len_put x : len (put_uvarint_bytes x) = Z.of_nat (length (put_uvarint_bytes x)).
Proof. reflexivity. Qed.

Lemma size_ok s : 0 <= Flags s < 2 ^ 31 -> 0 <= Subscribed s < 2 ^ 31 -> len (Data s) < 2 ^ 31 ->
  MarshaledSize s = Ok (len (enc s)).
Proof.
  intros HF HS HD. pose proof (len_nonneg (Data s)). unfold MarshaledSize, enc.
  rewrite !s32_31 by lia. rewrite !Len_ok by lia. cbn [bind]. rewrite !len_app. f_equal. lia.
Qed.

Lemma marshal_ok s dest : 0 <= Flags s < 2 ^ 31 -> 0 <= Subscribed s < 2 ^ 31 -> len (Data s) < 2 ^ 31 ->
  len (enc s) <= len dest -> Marshal s dest = Ok (enc s, skipn (length (enc s)) dest).
Proof.
  intros HF HS HD HL. pose proof (len_nonneg (Data s)).
  unfold Marshal. rewrite !s32_31 by lia. unfold enc in HL. rewrite !len_app in HL. unfold len in HL.
  rewrite Put_ok by lia. cbn [bind]. rewrite Put_ok by (rewrite ?skipn_length; lia). cbn [bind].
  rewrite Put_ok by (rewrite ?skipn_length; fold (len (Data s)) in HL; lia). cbn [bind].
  match goal with |- (if ?c then _ else _) = _ => replace c with false end.
  - rewrite !skipn_skipn. unfold enc. do 3 f_equal. rewrite !app_length. lia.
  - symmetry. apply Z.ltb_ge. rewrite !skipn_skipn. unfold len at 2. rewrite skipn_length.
    fold (len (Data s)) in HL. lia.
Qed.

Lemma marshal_size_bounds s : 3 <= len (enc s).
Proof.
  unfold enc. rewrite !len_app. pose proof (uvarint_len_pos 9 (Flags s)). pose proof (uvarint_len_pos 9 (Subscribed s)).
  pose proof (uvarint_len_pos 9 (len (Data s))). pose proof (len_nonneg (Data s)). unfold put_uvarint_bytes, len in *. lia.
Qed.

Lemma unmarshal_enc s rest max : state_ok s ->
  Unmarshal (enc s ++ rest) max = if len (Data s) >? max then Err else Ok (s, rest).
Proof.
  intros (HF & HS & HD & HI). pose proof (len_nonneg (Data s)). unfold Unmarshal, enc.
  rewrite <- !app_assoc. rewrite !Scan_put by lia. cbn [bind]. rewrite !Scan_put by lia. cbn [bind].
  rewrite !Scan_put by lia. cbn [bind].
  destruct (len (Data s) >? max); [reflexivity|].
  rewrite len_app. replace (len (Data s) + len rest <? len (Data s)) with false by (pose proof (len_nonneg rest); lia).
  unfold len at 1 2 3. rewrite Nat2Z.id, firstn_app_exact, skipn_app_exact by reflexivity.
  rewrite !u32_31 by lia.
  destruct (has FlagSendReceiving (Flags s)) eqn:E; cbn [negb andb].
  - now destruct s.
  - destruct (HI eq_refl) as [E2 E3]. rewrite E2, E3. cbn. destruct s; cbn in *. now subst.
Qed.

Lemma unmarshal_impossible s rest max :
  0 <= Flags s < 2 ^ 31 -> 0 <= Subscribed s < 2 ^ 31 -> len (Data s) < 2 ^ 31 ->
  has FlagSendReceiving (Flags s) = false -> (has FlagReadWriting (Flags s) = true \/ Data s <> []) ->
  Unmarshal (enc s ++ rest) max = Err.
Proof.
  intros HF HS HD E HI. pose proof (len_nonneg (Data s)). unfold Unmarshal, enc.
  rewrite <- !app_assoc. rewrite !Scan_put by lia. cbn [bind]. rewrite !Scan_put by lia. cbn [bind].
  rewrite !Scan_put by lia. cbn [bind].
  destruct (len (Data s) >? max); [reflexivity|].
  destruct (_ <? _); [reflexivity|].
  rewrite E. cbn [negb andb].
  replace (has FlagReadWriting (Flags s) || negb (len (Data s) =? 0)) with true; [reflexivity|].
  symmetry. destruct HI as [->|HI]; [reflexivity|]. apply orb_true_iff. right.
  apply negb_true_iff. apply Z.eqb_neq. unfold len. destruct (Data s); [congruence|cbn; lia].
Qed.

Lemma firstn_app_split {A} (a b : list A) n : (length a <= n)%nat -> firstn n (a ++ b) = a ++ firstn (n - length a) b.
Proof. intros H. rewrite firstn_app. now rewrite firstn_all2 by lia. Qed.

Lemma unmarshal_truncated s n max : 0 <= Flags s < 2 ^ 31 -> 0 <= Subscribed s < 2 ^ 31 -> len (Data s) < 2 ^ 31 ->
  (n < length (enc s))%nat -> Unmarshal (firstn n (enc s)) max = Err.
Proof.
  intros HF HS HD HN. pose proof (len_nonneg (Data s)). unfold Unmarshal, enc in *.
  rewrite !app_length in HN.
  set (a := put_uvarint_bytes (Flags s)) in *. set (b := put_uvarint_bytes (Subscribed s)) in *.
  set (c := put_uvarint_bytes (len (Data s))) in *.
  destruct (Nat.ltb_spec n (length a)) as [H1|H1].
  { rewrite firstn_app_le by lia. unfold a in *. now rewrite Scan_trunc by lia. }
  rewrite firstn_app_split by lia. unfold a at 1. rewrite Scan_put by lia. cbn [bind].
  destruct (Nat.ltb_spec (n - length a) (length b)) as [H2|H2].
  { rewrite firstn_app_le by lia. unfold b in *. now rewrite Scan_trunc by lia. }
  rewrite firstn_app_split by lia. unfold b at 1. rewrite Scan_put by lia. cbn [bind].
  destruct (Nat.ltb_spec (n - length a - length b) (length c)) as [H3|H3].
  { rewrite firstn_app_le by lia. unfold c in *. now rewrite Scan_trunc by lia. }
  rewrite firstn_app_split by lia. unfold c at 1. rewrite Scan_put by lia. cbn [bind].
  destruct (_ >? _); [reflexivity|].
  replace (_ <? _) with true; [reflexivity|]. symmetry. apply Z.ltb_lt. unfold len. rewrite firstn_length. lia.
Qed.

(* Arbitrary input: never a panic, and what is accepted is in range. *)
Lemma unmarshal_untrusted src max : is_bytes src ->
  Unmarshal src max = Err \/
  exists s k, Unmarshal src max = Ok (s, skipn k src) /\ (3 <= k <= length src)%nat /\
    state_ok s /\ len (Data s) <= max /\ is_bytes (Data s).
Proof.
  intros HB. unfold Unmarshal.
  destruct (Scan_total src HB) as [->|(f & k1 & -> & Hf & Hk1)]; [now left|]. cbn [bind].
  assert (HB1 : is_bytes (skipn k1 src)) by now apply Forall_skipn.
  destruct (Scan_total _ HB1) as [->|(u & k2 & -> & Hu & Hk2)]; [now left|]. cbn [bind].
  assert (HB2 : is_bytes (skipn k2 (skipn k1 src))) by now apply Forall_skipn.
  destruct (Scan_total _ HB2) as [->|(z & k3 & -> & Hz & Hk3)]; [now left|]. cbn [bind].
  assert (HB3 : is_bytes (skipn k3 (skipn k2 (skipn k1 src)))) by now apply Forall_skipn.
  rewrite !skipn_skipn in *. rewrite !skipn_length in *.
  destruct (z >? max) eqn:E1; [now left|].
  destruct (len (skipn (k1 + (k2 + k3)) src) <? z) eqn:E2; [now left|]. 
  destruct (negb (has FlagSendReceiving f) && _) eqn:E3; [now left|].
  right. unfold len in E2. rewrite skipn_length in E2.
  exists (mkState (u32 f) (u32 u) (firstn (Z.to_nat z) (skipn (k1 + (k2 + k3)) src))), (k1 + (k2 + k3) + Z.to_nat z)%nat.
  rewrite !u32_31 by lia. split; [reflexivity|].
  assert (HL : length (firstn (Z.to_nat z) (skipn (k1 + (k2 + k3)) src)) = Z.to_nat z)
    by (rewrite firstn_length, skipn_length; lia).
  split; [lia|]. split.
  - unfold state_ok; cbn [Flags Subscribed Data]. split; [lia|]. split; [lia|]. split; [unfold len; lia|].
    intros HS. rewrite HS in E3. cbn [negb andb] in E3. apply orb_false_iff in E3. destruct E3 as [E3 E4].
    split; [exact E3|]. apply negb_false_iff, Z.eqb_eq in E4. subst z. reflexivity.
  - cbn [Data]. split; [unfold len; lia|]. now apply Forall_firstn.
Qed.
