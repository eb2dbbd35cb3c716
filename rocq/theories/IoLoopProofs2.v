From Verif Require Import BaseLemmas Packet PacketProofs IoLoop IoLoopSpec IoLoopProofs.

Lemma frame_len8 f : frame_ok f -> (8 <= length (fst f ++ snd f))%nat.
Proof. intros [H1 H2]. now destruct (frame_len (fst f) (snd f) H1 H2) as (_ & _ & _ & L8). Qed.

Lemma stream_cons f fs : stream (f :: fs) = (fst f ++ snd f) ++ stream fs.
Proof. reflexivity. Qed.
Lemma stream_app a b : stream (a ++ b) = stream a ++ stream b.
Proof. unfold stream. now rewrite map_app, concat_app. Qed.

Lemma read_loop_end pipe fuel : concat pipe = [] -> read_loop (S fuel) [] pipe = ([], ([], REOF)).
Proof.
  intros H. cbn [read_loop]. unfold read_one. cbn [length Nat.sub]. destruct (read_full (HeaderSize - 0) pipe) as [h p1] eqn:R.
  destruct (read_full_spec _ _ _ _ R) as [-> _]. rewrite H. rewrite !firstn_nil. reflexivity.
Qed.

Definition first_frame (fs : list (bytes * bytes)) : bytes := match fs with f :: _ => fst f ++ snd f | [] => [] end.

(* Reading [q] more bytes of a stream of frames of which [m] bytes (less than
   the first frame) are buffered. *)
Lemma read_loop_cut fs : forall fuel m q pipe,
  Forall frame_ok fs -> (m + q < 8 * fuel)%nat ->
  (m < length (first_frame fs) \/ m = 0)%nat -> (m + q <= length (stream fs))%nat ->
  concat pipe = firstn q (skipn m (stream fs)) ->
  exists a b r e, fs = a ++ b /\ (length (stream a) + r = m + q)%nat /\ (r < length (first_frame b) \/ r = 0)%nat /\
    read_loop fuel (firstn m (stream fs)) pipe = (map fst a, (firstn r (stream b), e)) /\
    (a <> [] -> e = if (r =? 0)%nat || (r =? 8)%nat then REOF else RUnexpected) /\
    (a = [] -> e = if (q =? 0)%nat || ((r =? 8)%nat && (m <=? 8)%nat) then REOF else RUnexpected).
Proof.
  induction fs as [|[p pad] fs IH]; intros fuel m q pipe HF HL HM HQ HC.
  - cbn in HM, HQ. assert (m = 0%nat) as -> by lia. assert (q = 0%nat) as -> by lia.
    destruct fuel; [lia|]. exists [], [], 0%nat, REOF. cbn [stream map concat firstn app length first_frame].
    rewrite (read_loop_end pipe fuel HC). repeat split; try (cbn; lia); intros; try congruence; reflexivity.
  - destruct fuel; [lia|]. inversion HF as [|? ? [F1 F2] F3]; subst. cbn [fst snd] in F1, F2.
    pose proof (frame_len p pad F1 F2) as (_ & _ & _ & L8).
    assert (HM' : (m < length (p ++ pad))%nat) by (cbn [first_frame fst snd] in HM; lia).
    rewrite stream_cons in *. cbn [fst snd] in *. rewrite app_length in HQ.
    rewrite firstn_app_le by lia. rewrite skipn_app_le in HC by lia.
    assert (LS : length (skipn m (p ++ pad)) = (length (p ++ pad) - m)%nat) by apply skipn_length.
    destruct (Nat.lt_ge_cases (m + q) (length (p ++ pad))) as [HLT|HGE].
    + rewrite firstn_app_le in HC by lia.
      destruct (read_one_cut p pad F1 F2 m pipe q HLT HC) as (pipe' & E).
      eexists [], ((p, pad) :: fs), (m + q)%nat, _. cbn [app]. rewrite stream_cons. cbn [fst snd].
      split; [reflexivity|]. split; [reflexivity|]. split; [left; exact HLT|]. split.
      * cbn [read_loop]. rewrite E. rewrite (firstn_app_le (p ++ pad) (stream fs)) by lia. reflexivity.
      * split; [congruence|]. intros _. reflexivity.
    + rewrite firstn_app, (firstn_all2 (skipn m (p ++ pad))) in HC by lia. rewrite LS in HC.
      destruct (read_one_packet p pad F1 F2 m pipe _ HM' HC) as (pipe' & E1 & E2).
      replace (q - (length (p ++ pad) - m))%nat with (m + q - length (p ++ pad))%nat in E2 by lia.
      destruct (IH fuel 0%nat (m + q - length (p ++ pad))%nat pipe' F3 ltac:(lia) ltac:(now right) ltac:(lia) E2)
        as (a & b & r & e & EA & EL & ER & EE & EX1 & EX2).
      exists ((p, pad) :: a), b, r, e. rewrite stream_cons. cbn [fst snd app]. rewrite app_length. split; [now rewrite EA|].
      split; [lia|]. split; [assumption|]. split.
      * cbn [firstn] in EE. cbn [read_loop]. rewrite E1, EE. reflexivity.
      * split; [|discriminate]. intros _. destruct a as [|x a].
        -- rewrite EX2 by reflexivity. cbn [stream map concat length] in EL. replace (m + q - length (p ++ pad))%nat with r by lia.
           now rewrite andb_true_r.
        -- apply EX1. discriminate.
Qed.

(* More fuel makes no difference once the loop has ended. *)
Lemma stream_length fs : Forall frame_ok fs -> (8 * length fs <= length (stream fs))%nat.
Proof.
  induction fs as [|f fs IH]; intros H; [cbn; lia|]. inversion H; subst. rewrite stream_cons, app_length. pose proof (frame_len8 f H2).
  specialize (IH H3). cbn [length]. lia.
Qed.

(* Splitting of saved output *)
Lemma Code_firstn p b : (8 <= length p)%nat -> Code (firstn (length p) (p ++ b)) = Code p.
Proof. intros H. now rewrite firstn_app_exact. Qed.

Definition svc_packet (n : Z) (p : bytes) : Prop :=
  packet_ok p /\ checkServicePacket n p = Ok p /\ exists c, Code p = Ok c /\ 0 <= c.

Lemma split_loop_msgs n ms : forall fuel tail,
  Forall (svc_packet n) ms -> (length ms < fuel)%nat -> len (concat ms ++ tail) < 2 ^ 32 ->
  ((length tail < 8)%nat \/ (8 <= unle (firstn 4 tail) <= 65536 /\ len tail < unle (firstn 4 tail))) ->
  split_loop fuel n (concat ms ++ tail) = Ok (ms, tail).
Proof.
  induction ms as [|p ms IH]; intros fuel tail HF HL H32 HT.
  - destruct fuel; [lia|]. cbn [concat app split_loop].
    destruct (Nat.ltb_spec (length tail) HeaderSize) as [H|H]; [reflexivity|].
    destruct HT as [HT|[HT HT2]]; [unfold HeaderSize in H; lia|]. set (sz := unle _) in *.
    replace ((sz <? 8) || (sz >? maxPacketSize)) with false by (unfold maxPacketSize; lia).
    rewrite u32_id by (pose proof (len_nonneg tail); lia). replace (len tail <? sz) with true by lia. reflexivity.
  - destruct fuel; [cbn in HL; lia|]. inversion HF as [|? ? (F1 & F2 & c & F3 & F4) F5]; subst.
    cbn [concat] in *. rewrite <- app_assoc in *. set (rest := concat ms ++ tail) in *.
    pose proof F1 as [K1 K2]. assert (K8 : (8 <= length p)%nat) by (unfold len in K1; lia).
    cbn [split_loop]. rewrite app_length.
    replace (length p + length rest <? HeaderSize)%nat with false by (unfold HeaderSize; symmetry; apply Nat.ltb_ge; lia).
    rewrite firstn_app_le by lia. rewrite K2. rewrite unle_le. change (256 ^ Z.of_nat 4) with (2 ^ 32). rewrite Z.mod_small by lia.
    replace ((len p <? 8) || (len p >? maxPacketSize)) with false by (unfold maxPacketSize; lia).
    rewrite len_app in *. pose proof (len_nonneg rest). rewrite u32_id by lia.
    replace (len p + len rest <? len p) with false by lia.
    rewrite firstn_app_exact by (unfold len; lia). rewrite skipn_app_exact by (unfold len; lia).
    rewrite F3. cbn [bind]. replace (c <? 0) with false by lia. rewrite F2. cbn [bind].
    unfold rest. rewrite IH; try assumption; [reflexivity|cbn in HL; lia|fold rest; lia].
Qed.

Lemma concat_length_le {A} (ms : list (list A)) : Forall (fun m => (1 <= length m)%nat) ms -> (length ms <= length (concat ms))%nat.
Proof. induction 1 as [|m ms H _ IH]; cbn [concat length]; [lia|]. rewrite app_length. lia. Qed.

Lemma split_msgs n ms tail :
  Forall (svc_packet n) ms -> len (concat ms ++ tail) < 2 ^ 32 ->
  ((length tail < 8)%nat \/ (8 <= unle (firstn 4 tail) <= 65536 /\ len tail < unle (firstn 4 tail))) ->
  splitBufferedPackets n (concat ms ++ tail) = Ok (ms, tail).
Proof.
  intros HF HL HT. unfold splitBufferedPackets. apply split_loop_msgs; try assumption.
  assert (length ms <= length (concat ms))%nat.
  { apply concat_length_le. eapply Forall_impl; [|exact HF]. intros p ([K _] & _). unfold len in K. lia. }
  rewrite app_length. lia.
Qed.
