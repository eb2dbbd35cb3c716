From Verif Require Import BaseLemmas Packet PacketProofs IoLoop IoLoopSpec.

Lemma read_full_spec pipe : forall n got rest, read_full n pipe = (got, rest) ->
  got = firstn n (concat pipe) /\ concat rest = skipn n (concat pipe).
Proof.
  induction pipe as [|c t IH]; intros n got rest E.
  - destruct n; injection E as <- <-; now split.
  - destruct n as [|n]; [injection E as <- <-; now split|].
    cbn [read_full] in E. destruct (Nat.leb_spec (length c) (S n)) as [H|H].
    + destruct (read_full (S n - length c) t) as [b p] eqn:R. injection E as <- <-.
      destruct (IH _ _ _ R) as [H1 H2]. cbn [concat]. rewrite firstn_app, skipn_app, H1, H2.
      rewrite (firstn_all2 c) by lia. rewrite (skipn_all2 c) by lia. now split.
    + injection E as <- <-. cbn [concat]. rewrite firstn_app_le, skipn_app_le by lia. now split.
Qed.

Lemma align_bounds n pad : 0 <= n -> 0 <= pad < 8 -> (n + pad) mod 8 = 0 -> Align n = n + pad.
Proof.
  intros H1 H2 H3. rewrite Align_spec. pose proof (Z.div_mod (n + pad) 8 ltac:(lia)) as D.
  replace ((n + 7) / 8) with ((n + pad) / 8); [lia|].
  apply Z.div_unique with (r := n + 7 - 8 * ((n + pad) / 8)); lia.
Qed.

Lemma unle_size p pad : packet_ok p -> unle (firstn 4 (firstn 8 (p ++ pad))) = len p.
Proof.
  intros [H1 H2]. rewrite firstn_firstn. cbn [Init.Nat.min]. rewrite firstn_app_le by (unfold len in H1; lia). rewrite H2.
  rewrite unle_le. apply Z.mod_small. cbn. lia.
Qed.

Lemma firstn_split {A} (l : list A) a b : (b <= a)%nat -> firstn a l = firstn b l ++ firstn (a - b) (skipn b l).
Proof.
  revert a l; induction b as [|b IH]; intros a l H; [cbn [firstn skipn app]; f_equal; lia|].
  destruct a as [|a]; [lia|]. destruct l as [|x l]; [now rewrite !firstn_nil|]. cbn [firstn skipn app Nat.sub]. f_equal. apply IH. lia.
Qed.

Section Frame.
  Variables (p pad : bytes).
  Hypotheses (PK : packet_ok p) (PD : padding_ok p pad).
  Let fr := p ++ pad.

  Lemma frame_len : (8 <= length p)%nat /\ length fr = (length p + length pad)%nat /\
    Z.to_nat (Align (len p)) = length fr /\ (8 <= length fr)%nat.
  Proof.
    destruct PK as [K1 _], PD as [K2 K3]. pose proof (len_nonneg pad). unfold fr. rewrite app_length.
    rewrite (align_bounds (len p) (len pad)) by lia. unfold len in *. repeat split; lia.
  Qed.

  (* one packet is read, [m] bytes of its frame being buffered already *)
  Lemma read_one_packet m pipe rest :
    (m < length fr)%nat -> concat pipe = skipn m fr ++ rest ->
    exists pipe', read_one (firstn m fr) pipe = (RPacket p, pipe') /\ concat pipe' = rest.
  Proof.
    intros HM HC. destruct frame_len as (F1 & F3 & F4 & F5). unfold read_one.
    assert (LM : length (firstn m fr) = m) by (rewrite firstn_length; lia). rewrite LM.
    destruct (read_full (HeaderSize - m) pipe) as [h pipe1] eqn:R1. destruct (read_full_spec _ _ _ _ R1) as [H1 H2].
    rewrite HC in H1, H2. rewrite firstn_app_le in H1 by (rewrite skipn_length; unfold HeaderSize; lia).
    rewrite skipn_app_le in H2 by (rewrite skipn_length; unfold HeaderSize; lia).
    assert (HH : firstn HeaderSize (firstn m fr) ++ h = firstn 8 fr).
    { rewrite H1. unfold HeaderSize. rewrite firstn_firstn. destruct (Nat.le_gt_cases m 8).
      - rewrite Nat.min_r by lia. rewrite <- (firstn_skipn m fr) at 3. rewrite firstn_app, firstn_firstn, Nat.min_r by lia.
        rewrite LM. reflexivity.
      - rewrite Nat.min_l by lia. replace (8 - m)%nat with 0%nat by lia. cbn [firstn]. now rewrite app_nil_r. }
    rewrite HH. assert (L8 : length (firstn 8 fr) = 8%nat) by (rewrite firstn_length; lia). rewrite L8.
    change (8 <? HeaderSize)%nat with false. cbn iota. assert (SZE : unle (firstn 4 (firstn 8 fr)) = len p) by (apply unle_size; assumption). rewrite SZE.
    destruct PK as [K1 K2].
    replace ((len p <? 8) || (len p >? maxPacketSize)) with false by (unfold maxPacketSize; lia).
    rewrite F4.
    set (buf := firstn 8 fr ++ firstn (length fr - HeaderSize) (skipn HeaderSize (firstn m fr))).
    assert (EB : buf = firstn (Nat.max 8 m) fr).
    { unfold buf, HeaderSize. rewrite (firstn_all2 (skipn 8 _)) by (rewrite skipn_length; lia).
      destruct (Nat.le_gt_cases m 8).
      - rewrite skipn_all2 by lia. rewrite app_nil_r. now rewrite Nat.max_l by lia.
      - rewrite Nat.max_r by lia. rewrite <- (firstn_skipn 8 (firstn m fr)) at 2. now rewrite firstn_firstn, Nat.min_l by lia. }
    assert (LB : length buf = Nat.max 8 m) by (rewrite EB, firstn_length; lia). rewrite LB.
    destruct (read_full (length fr - Nat.max 8 m) pipe1) as [b pipe2] eqn:R2. destruct (read_full_spec _ _ _ _ R2) as [H3 H4].
    rewrite H2 in H3, H4. unfold HeaderSize in H3, H4. rewrite skipn_skipn in H3, H4.
    replace (m + (8 - m))%nat with (Nat.max 8 m) in H3, H4 by lia.
    assert (LS : length (skipn (Nat.max 8 m) fr) = (length fr - Nat.max 8 m)%nat) by apply skipn_length.
    rewrite firstn_app_exact in H3 by lia. rewrite skipn_app_exact in H4 by lia.
    assert (EF : buf ++ b = fr) by (rewrite EB, H3; apply firstn_skipn).
    rewrite EF. rewrite Nat.ltb_irrefl.
    exists pipe2. split; [|assumption]. f_equal. f_equal. unfold fr. apply firstn_app_exact. unfold len. lia.
  Qed.

  (* the pipe ends within the frame *)
  Lemma read_one_cut m pipe q :
    (m + q < length fr)%nat -> concat pipe = firstn q (skipn m fr) ->
    exists pipe', read_one (firstn m fr) pipe =
      (REnd (firstn (m + q) fr) (if (q =? 0)%nat || ((m + q =? 8)%nat && (m <=? 8)%nat) then REOF else RUnexpected), pipe').
  Proof.
    intros HM HC. destruct frame_len as (F1 & F3 & F4 & F5). unfold read_one.
    assert (LM : length (firstn m fr) = m) by (rewrite firstn_length; lia). rewrite LM.
    destruct (read_full (HeaderSize - m) pipe) as [h pipe1] eqn:R1. destruct (read_full_spec _ _ _ _ R1) as [H1 H2].
    rewrite HC in H1, H2. rewrite firstn_firstn in H1.
    assert (HH : firstn HeaderSize (firstn m fr) ++ h = firstn (Nat.min 8 (m + q)) fr).
    { rewrite H1. unfold HeaderSize. rewrite firstn_firstn. destruct (Nat.le_gt_cases m 8).
      - rewrite Nat.min_r by lia. rewrite <- (firstn_skipn m fr) at 3. rewrite firstn_app, firstn_firstn.
        rewrite (Nat.min_r (Nat.min 8 (m + q)) m) by lia. rewrite LM. f_equal. f_equal. lia.
      - replace (Nat.min 8 m) with 8%nat by lia. replace (Nat.min 8 (m + q)) with 8%nat by lia. replace (Nat.min (8 - m) q) with 0%nat by lia. cbn [firstn]. now rewrite app_nil_r. }
    rewrite HH. assert (L8 : length (firstn (Nat.min 8 (m + q)) fr) = Nat.min 8 (m + q)) by (rewrite firstn_length; lia). rewrite L8.
    assert (LH : length h = Nat.min (8 - m) q) by (rewrite H1, firstn_length, skipn_length; unfold HeaderSize; lia).
    destruct (Nat.ltb_spec (Nat.min 8 (m + q)) HeaderSize) as [HS|HS]; unfold HeaderSize in HS.
    - exists pipe1. f_equal. f_equal; [f_equal; lia|].
      destruct h as [|x h]; cbn [length short] in *; destruct (_ || _) eqn:Q; try reflexivity; lia.
    - rewrite Nat.min_l by lia. assert (SZE : unle (firstn 4 (firstn 8 fr)) = len p) by (apply unle_size; assumption). rewrite SZE. destruct PK as [K1 K2].
      replace ((len p <? 8) || (len p >? maxPacketSize)) with false by (unfold maxPacketSize; lia).
      rewrite F4.
      set (buf := firstn 8 fr ++ firstn (length fr - HeaderSize) (skipn HeaderSize (firstn m fr))).
      assert (EB : buf = firstn (Nat.max 8 m) fr).
      { unfold buf, HeaderSize. rewrite (firstn_all2 (skipn 8 _)) by (rewrite skipn_length; lia).
        destruct (Nat.le_gt_cases m 8).
        - rewrite skipn_all2 by lia. rewrite app_nil_r. now rewrite Nat.max_l by lia.
        - rewrite Nat.max_r by lia. rewrite <- (firstn_skipn 8 (firstn m fr)) at 2. now rewrite firstn_firstn, Nat.min_l by lia. }
      assert (LB : length buf = Nat.max 8 m) by (rewrite EB, firstn_length; lia). rewrite LB.
      destruct (read_full (length fr - Nat.max 8 m) pipe1) as [b pipe2] eqn:R2. destruct (read_full_spec _ _ _ _ R2) as [H3 H4].
      rewrite H2 in H3. unfold HeaderSize in H3. rewrite skipn_firstn_comm, skipn_skipn in H3.
      replace (m + (8 - m))%nat with (Nat.max 8 m) in H3 by lia.
      rewrite firstn_firstn in H3.
      assert (LBB : length b = (m + q - Nat.max 8 m)%nat) by (rewrite H3, firstn_length, skipn_length; lia).
      assert (EF : buf ++ b = firstn (m + q) fr).
      { rewrite EB, H3. rewrite (firstn_split fr (m + q) (Nat.max 8 m)) by lia. f_equal. f_equal. lia. }
      rewrite EF. rewrite firstn_length, Nat.min_l by lia.
      destruct (Nat.ltb_spec (m + q) (length fr)) as [_|?]; [|lia]. exists pipe2. f_equal. f_equal.
      destruct b as [|x b]; cbn [length short] in *; destruct (_ || _) eqn:Q; try reflexivity; lia.
  Qed.
End Frame.

Lemma read_one_bad h pipe : (8 <= length h)%nat -> concat pipe = h ->
  let size := unle (firstn 4 h) in size < 8 \/ size > 65536 ->
  exists pipe', read_one [] pipe = (REnd [] RBadSize, pipe').
Proof.
  intros HL HC size HB. unfold read_one. cbn [length Nat.sub]. change (HeaderSize - 0)%nat with 8%nat.
  destruct (read_full 8 pipe) as [g pipe1] eqn:R1. destruct (read_full_spec _ _ _ _ R1) as [H1 H2]. rewrite HC in H1.
  rewrite firstn_nil. cbn [app]. rewrite H1. rewrite firstn_length, Nat.min_l by lia. change (8 <? HeaderSize)%nat with false. cbn iota.
  rewrite firstn_firstn. cbn [Init.Nat.min]. fold size.
  replace ((size <? 8) || (size >? maxPacketSize)) with true by (unfold maxPacketSize; lia). now exists pipe1.
Qed.

(* The read loop on a stream of frames followed by [s], of which no more is a
   complete frame, [m] bytes of the first frame being buffered. *)
Lemma read_loop_frames fs : forall fuel m pipe s e,
  Forall frame_ok fs -> (length fs < fuel)%nat ->
  (m < length (match fs with f :: _ => fst f ++ snd f | [] => [] end) \/ m = 0)%nat ->
  concat pipe = skipn m (stream fs) ++ s ->
  (forall t pipe', concat pipe' = s -> (t = 0%nat) -> exists pipe'', read_one [] pipe' = (e, pipe'')) ->
  match e with
  | REnd b er => read_loop fuel (firstn m (stream fs)) pipe = (map fst fs, (b, er))
  | RPacket _ => True
  end.
Proof.
  induction fs as [|[p pad] fs IH]; intros fuel m pipe s e HF HL HM HC HE.
  - destruct fuel; [lia|]. cbn [stream map concat] in *. assert (m = 0%nat) as -> by (cbn in HM; lia).
    cbn [skipn app] in HC. destruct (HE 0%nat pipe HC eq_refl) as [pipe'' E].
    cbn [firstn read_loop]. rewrite E. destruct e; [exact Logic.I|reflexivity].
  - destruct fuel; [cbn in HL; lia|]. inversion HF as [|? ? [F1 F2] F3]; subst. cbn [fst snd] in F1, F2.
    pose proof (frame_len p pad F1 F2) as (_ & _ & _ & L8).
    assert (HM' : (m < length (p ++ pad))%nat) by (cbn [fst snd] in HM; lia).
    unfold stream in *. cbn [map concat fst snd] in *. fold (stream fs) in *.
    rewrite firstn_app_le by lia. rewrite skipn_app_le in HC by lia. rewrite <- app_assoc in HC.
    destruct (read_one_packet p pad F1 F2 m pipe _ HM' HC) as (pipe' & E1 & E2).
    cbn [read_loop]. rewrite E1.
    assert (K : match e with REnd b er => read_loop fuel (firstn 0 (stream fs)) pipe' = (map fst fs, (b, er)) | _ => True end).
    { apply IH with (s := s); try assumption; [cbn in HL; lia|now right]. }
    cbn [firstn] in K. destruct e; [exact Logic.I|]. rewrite K. reflexivity.
Qed.
