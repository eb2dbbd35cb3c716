(* IoLoopProps.v: properties C14, C15, C16 and C47 (packet pipes between the
   program and the runtime). *)
From Verif Require Import BaseLemmas Packet PacketProofs IoLoop IoLoopSpec IoLoopProofs IoLoopProofs2 IoLoopProofs3 IoLoopProofs4 IoLoopProofs5.

(* C14: however the pipe chunks the bytes of a sequence of padded packets, the
   read loop delivers exactly those packets and then the end of file. *)
Theorem io_reader_packets : forall fs pipe,
  Forall frame_ok fs -> concat pipe = stream fs -> reads [] pipe = (map fst fs, ([], REOF)).
Proof. exact reads_all. Qed.
Print Assumptions io_reader_packets.

(* C14: a header announcing a size below 8 or above 65536 ends the loop with an
   error after the packets before it, and yields no packet. *)
Theorem io_reader_bad_size : forall fs pipe h,
  Forall frame_ok fs -> (8 <= length h)%nat -> unle (firstn 4 h) < 8 \/ unle (firstn 4 h) > 65536 ->
  concat pipe = stream fs ++ h -> reads [] pipe = (map fst fs, ([], RBadSize)).
Proof. exact reads_bad. Qed.
Print Assumptions io_reader_bad_size.

(* C14: what the write loop writes is read back as the same packets by such a
   reader. *)
Theorem io_writer_roundtrip : forall ps pipe,
  Forall packet_ok ps -> concat pipe = write_loop ps -> reads [] pipe = (ps, ([], REOF)).
Proof.
  intros ps pipe HP HC. rewrite write_loop_stream in HC. erewrite io_reader_packets; [| |exact HC].
  - rewrite map_map. cbn [fst]. now rewrite map_id.
  - clear HC. induction HP as [|p ps H _ IH]; cbn [map]; constructor; [|exact IH]. split; [exact H|apply padded_ok].
Qed.
Print Assumptions io_writer_roundtrip.

Definition demo_p1 : bytes := [11;0;0;0; 0;0; 0; 0; 1;2;3].
Definition demo_p2 : bytes := [16;0;0;0; 1;0; 3; 0; 5;0;0;0; 0;0;0;0].
Definition demo_frames := [(demo_p1, [7; 8; 9; 1; 2]); (demo_p2, [])].
Lemma demo_frames_ok : Forall frame_ok demo_frames.
Proof. repeat constructor; cbn; lia. Qed.
Example io_reader_case : Forall frame_ok demo_frames /\ len (stream demo_frames) = 32 /\
  reads [] [firstn 3 (stream demo_frames); firstn 20 (skipn 3 (stream demo_frames)); skipn 23 (stream demo_frames)]
  = ([demo_p1; demo_p2], ([], REOF)).
Proof. split; [exact demo_frames_ok|]. split; reflexivity. Qed.

(* C15: over any number of suspensions and resumptions which succeed, at any
   point: the messages delivered to services so far, those found in the saved
   output, and those which the read loop obtains from the rest of the program's
   output, are together the messages the program wrote, in order, none lost nor
   duplicated.  (fs: everything the program writes during its life.) *)
Theorem io_output_preserved_partial : forall fs d o n f,
  Forall frame_ok fs -> Forall (fun x => is_bytes (fst x)) fs -> lives (stream fs) d o n f ->
  exists ms tail, splitBufferedPackets n o = Ok (ms, tail) /\
    forall pipe, concat pipe = f -> exists ps, reads tail pipe = (ps, ([], REOF)) /\
      d ++ ms ++ filter to_service ps = filter to_service (map fst fs).
Proof.
  intros fs d o n f HF HB L. destruct (lives_inv fs d o n f HF HB L) as (ms & m & rest & E1 & E2 & E3 & E4 & E5 & E6 & E7 & E8).
  destruct (clean_tail m rest E4 E3) as [LT TT].
  exists ms, (firstn m (stream rest)). split; [rewrite E1 in *; now apply split_msgs|].
  intros pipe HP. exists (map fst rest). split; [|assumption].
  assert (LM : (m <= length (stream rest))%nat) by (rewrite firstn_length in LT; lia).
  assert (HM : (m < length (first_frame rest) \/ m = 0)%nat) by (destruct E3 as [->|[-> ?]]; [now right|now left]).
  assert (HC' : concat pipe = firstn (length (stream rest) - m) (skipn m (stream rest))).
  { rewrite HP, E2, firstn_all2; [reflexivity|rewrite skipn_length; lia]. }
  unfold reads.
  destruct (read_loop_cut rest (S (length (firstn m (stream rest)) + length (concat pipe))) m (length (stream rest) - m) pipe E4
    ltac:(rewrite HP, E2, LT, skipn_length; lia) HM ltac:(lia) HC') as (a & b & r & e & EA & EL & ER & EE & EX1 & EX2).
  rewrite EE. subst rest. rewrite stream_app, app_length in *.
  assert (b = [] /\ r = 0%nat) as [-> ->].
  { destruct b as [|x b]; [cbn in *; split; [reflexivity|lia]|].
    exfalso. apply Forall_app in E4. destruct E4 as [_ HF']. inversion HF'; subst. pose proof (frame_len8 x H1).
    rewrite stream_cons, app_length in EL. cbn [first_frame] in ER. lia. }
  rewrite app_nil_r. cbn [firstn stream map concat]. f_equal. f_equal.
  destruct a as [|x a]; [|now rewrite (EX1 ltac:(discriminate))].
  rewrite (EX2 eq_refl). cbn [stream map concat length app] in *. replace (0 + 0 - m)%nat with 0%nat by lia. reflexivity.
Qed.
Print Assumptions io_output_preserved_partial.

(* C15, the condition under which suspension succeeds: the output is cut at the
   end of a packet or right after a header.  (A new program, or one resumed with
   a header as the partial packet.) *)
Theorem io_suspend_cut_partial : forall fs k pipe n input sv s0 es s o' v',
  Forall frame_ok fs -> Forall (fun x => is_bytes (fst x)) fs ->
  (k <= length (stream fs))%nat -> concat pipe = firstn k (stream fs) ->
  io_start [] input n sv pipe = Ok s0 -> io_run s0 es = Some s -> result s = Some (OFrozen o' v') ->
  exists a b, fs = a ++ b /\ (k = length (stream a) \/ (k = length (stream a) + 8)%nat /\ b <> []).
Proof.
  intros fs k pipe n input sv s0 es s o' v' HF HB HK HC HS HR HO.
  destruct (cut_fails fs 0 k pipe [] n input sv s0 es s HF HB ltac:(now left) HK HC eq_refl HS HR o' v' HO) as (a & b & r & E1 & E2 & E3 & E4).
  exists a, b. split; [assumption|]. destruct E3 as [->| ->]; [left; lia|right]. split; [lia|].
  intros ->. cbn in E4. lia.
Qed.
Print Assumptions io_suspend_cut_partial.

(* C15 refuted: a program that has written part of a packet when it stops (here
   10 bytes of 16) cannot be suspended: whatever the loop does, it returns an
   error instead of saving the output. *)
Theorem io_output_cut_refuted : exists fs k, Forall frame_ok fs /\ Forall (fun x => is_bytes (fst x)) fs /\ (k <= length (stream fs))%nat /\
  forall pipe n input sv s0 es s, concat pipe = firstn k (stream fs) ->
    io_start [] input n sv pipe = Ok s0 -> io_run s0 es = Some s -> result s = None \/ result s = Some OFailed.
Proof.
  exists demo_frames, 26%nat.
  assert (HB : Forall (fun x : bytes * bytes => is_bytes (fst x)) demo_frames)
    by (repeat constructor; unfold is_byte; lia).
  split; [exact demo_frames_ok|]. split; [exact HB|]. split; [cbn; lia|].
  intros pipe n input sv s0 es s HC HS HR. destruct (result s) as [[o v|]|] eqn:RS; [|now right|now left]. exfalso.
  destruct (io_suspend_cut_partial demo_frames 26 pipe n input sv s0 es s o v demo_frames_ok HB ltac:(cbn; lia) HC HS HR RS) as (a & b & E1 & E2).
  unfold demo_frames in E1. destruct a as [|x a]; [cbn in E2; lia|]. injection E1 as <- E1.
  destruct a as [|y a]; [cbn in E2; lia|]. injection E1 as <- E1. destruct a; [|discriminate]. cbn in E2. lia.
Qed.
Print Assumptions io_output_cut_refuted.

(* a history as required by io_output_preserved_partial: demo_p1 is read and
   pending, and the header of demo_p2 has been read when the program is
   suspended *)
Example io_lives_case : lives (stream demo_frames) [] (demo_p1 ++ firstn 8 demo_p2) 2 (skipn 24 (stream demo_frames)).
Proof.
  assert (H : exists s0 s, io_start [] [] 2 None [firstn 24 (stream demo_frames)] = Ok s0 /\
    io_run s0 [IRead None; IDead; IRead None] = Some s /\ delivered s = [] /\ nsvc s = 2 /\
    result s = Some (OFrozen (demo_p1 ++ firstn 8 demo_p2) [])).
  { eexists. eexists. split; [reflexivity|]. split; [vm_compute; reflexivity|]. repeat split. }
  destruct H as (s0 & s & H1 & H2 & H3 & H4 & H5).
  pose proof (lives_cycle (stream demo_frames) [] [] 2 (stream demo_frames) 24 [] None [firstn 24 (stream demo_frames)] s0 _ s _ _
    (lives_start _ 2) ltac:(cbn; lia) eq_refl H1 H2 H5) as L.
  rewrite H3, H4 in L. apply L. cbn; lia.
Qed.

(* C16: whatever bytes the program writes, whatever its saved output contains
   and however the loop is scheduled, every packet delivered to the services is
   a complete packet that is deliverable. *)
Theorem io_only_deliverable : forall output input n sv pipe s0 es s,
  is_bytes output -> is_bytes (concat pipe) ->
  io_start output input n sv pipe = Ok s0 -> io_run s0 es = Some s ->
  Forall (fun p => packet_ok p /\ deliverable (nsvc s) p) (delivered s).
Proof.
  intros output input n sv pipe s0 es s HO HP HS HR. unfold io_start in HS.
  destruct (splitBufferedPackets n output) as [[ms tail]| |] eqn:SP; try discriminate. cbn [bind] in HS.
  destruct (split_loop_good _ _ _ _ _ HO SP) as [G1 G2]. pose proof (read_loop_good (S (length tail + length (concat pipe))) tail pipe G2 HP) as G3.
  fold (reads tail pipe) in G3. destruct (reads tail pipe) as [ps e]. cbn [fst] in G3. injection HS as <-.
  assert (RES : forall p n, svc_packet n p -> is_bytes p -> packet_ok p /\ deliverable n p).
  { intros p m (H1 & H2 & H3) HB. split; [assumption|]. apply check_iff; try assumption. now split. }
  (* the fifo invariant, with the bytes of the pending packets *)
  assert (BM : Forall is_bytes ms).
  { clear - SP HO. unfold splitBufferedPackets in SP. revert SP HO. generalize (S (length output)). intros fuel. revert output ms tail.
    induction fuel as [|k IH]; intros buf ms tail E HB; [discriminate|]. cbn [split_loop] in E.
    destruct (_ <? _)%nat in E; [injection E as <- <-; constructor|].
    destruct (_ || _) in E; [discriminate|]. destruct (u32 _ <? _) in E; [injection E as <- <-; constructor|].
    set (p := firstn _ buf) in *. destruct (Code p); try discriminate. cbn [bind] in E. destruct (_ <? 0) in E; [discriminate|].
    destruct (checkServicePacket n p) as [q| |] eqn:K; try discriminate. cbn [bind] in E.
    destruct (split_loop k n (skipn _ buf)) as [[ms' t']| |] eqn:R; try discriminate. cbn [bind] in E. injection E as <- <-.
    constructor; [|eapply IH; [exact R|now apply skipn_bytes]].
    assert (q = p) as ->; [|now apply firstn_bytes].
    unfold checkServicePacket in K. destruct (Code p); try discriminate. cbn [bind] in K. destruct (_ >=? n) in K; [discriminate|].
    destruct (Domain p); try discriminate. cbn [bind] in K. destruct (_ || _ || _) in K; [congruence|].
    destruct (_ =? _) in K; [|discriminate]. destruct (_ <? _) in K; congruence. }
  match type of HR with io_run ?x _ = _ => set (s0 := x) in * end.
  assert (F0 : Fifo ms ps s0) by (constructor; cbn; [reflexivity|assumption|constructor|assumption]).
  destruct (fifo_run ms ps es s0 s F0 eq_refl HR) as ([K1 K2 K3 K4] & _).
  assert (BA : Forall is_bytes (delivered s ++ msgs s ++ filter to_service (inbox s))).
  { rewrite K1. apply Forall_app. split; [assumption|]. clear - G3. induction G3 as [|x l [_ ?] _ IH]; cbn [filter]; [constructor|].
    destruct (to_service x); [now constructor|assumption]. }
  apply Forall_app in BA. destruct BA as [BA _]. clear - RES K3 BA.
  induction (delivered s) as [|x l IH]; constructor; inversion K3; inversion BA; subst; [now apply RES|now apply IH].
Qed.
Print Assumptions io_only_deliverable.

(* C16: and a packet addressed to a service that is not deliverable, or with
   any negative code other than that of service discovery, ends the loop with
   an error. *)
Theorem io_undeliverable_fails : forall s p t reply,
  result s = None -> inbox s = p :: t -> may_read s = true -> packet_ok p -> is_bytes p ->
  let code := unle (firstn 2 (skipn 4 p)) in
  code <> 65535 -> ~ deliverable (nsvc s) p ->
  exists s', io_step s (IRead reply) = Some s' /\ result s' = Some OFailed /\ delivered s' = delivered s.
Proof.
  intros s p t reply HR HI HM PK PB code HC ND. unfold io_step. rewrite HR, HM, HI.
  assert (L8 : (8 <= length p)%nat) by (destruct PK as [K _]; unfold len in K; lia).
  unfold handlePacket. rewrite (Code_ok p L8). cbn [bind]. fold code.
  pose proof (code_range p PB L8) as CR. fold code in CR. pose proof (s16_nonneg code CR) as SN.
  destruct (s16 code >=? 0) eqn:Q.
  - destruct (checkServicePacket (nsvc s) p) as [q| |] eqn:K; cbn [bind]; try (eexists; repeat split).
    exfalso. apply ND. apply check_iff; [now split|exists (s16 code); split; [apply (Code_ok p L8)|lia]|].
    assert (q = p) as <-; [|assumption].
    clear - K. unfold checkServicePacket in K. destruct (Code p); try discriminate. cbn [bind] in K. destruct (_ >=? _) in K; [discriminate|].
    destruct (Domain p); try discriminate. cbn [bind] in K. destruct (_ || _ || _) in K; [congruence|].
    destruct (_ =? _) in K; [|discriminate]. destruct (_ <? _) in K; congruence.
  - replace (s16 code =? CodeServices) with false; [eexists; repeat split|].
    symmetry. apply Z.eqb_neq. intros E. unfold s16, CodeServices in E.
    replace (code + 2 ^ 15) with (code - 2 ^ 15 + 1 * 2 ^ 16) in E by lia. rewrite Z.mod_add, Z.mod_small in E by lia. lia.
Qed.
Print Assumptions io_undeliverable_fails.

Example io_deliver_case : exists s0 s, io_start [] [] 2 None [stream demo_frames] = Ok s0 /\
  io_run s0 [IRead None; IDeliver; IRead None; IDeliver; IRead None] = Some s /\ delivered s = [demo_p1; demo_p2] /\
  result s = Some (OFrozen [] []).
Proof. eexists. eexists. split; [reflexivity|]. split; [vm_compute; reflexivity|]. now split. Qed.

(* C16 / robustness: a service's packet shorter than a header, longer than
   65536 bytes, or with a negative code makes the loop panic; otherwise it is
   put on its way unchanged except for its size field. *)
Theorem io_service_packet : forall p, (8 <= length p)%nat -> is_bytes p -> len p <= 65536 -> unle (firstn 2 (skipn 4 p)) < 2 ^ 15 ->
  exists q, initMessagePacket p = Ok q /\ packet_ok q /\ skipn 4 q = skipn 4 p.
Proof.
  intros p L8 HB HL HC. pose proof (code_range p HB L8) as CR. pose proof (s16_nonneg _ CR) as SN.
  unfold initMessagePacket. replace ((len p <? 8) || (len p >? maxPacketSize)) with false by (unfold maxPacketSize, len in *; lia).
  rewrite (Code_ok p L8). cbn [bind]. replace (_ <? 0) with false by lia.
  unfold EncodedSize. rewrite get_le_ok by (cbn; lia). cbn [bind]. change (skipn OffsetSize p) with p.
  assert (len p = Z.of_nat (length p)) by reflexivity.
  rewrite u32_id by lia. destruct (_ =? _) eqn:Q.
  - exists p. split; [reflexivity|]. split; [|reflexivity]. split; [lia|].
    apply Z.eqb_eq in Q. assert (L4 : length (firstn 4 p) = 4%nat) by (rewrite firstn_length; lia).
    rewrite <- Q. rewrite <- L4 at 2. symmetry. apply le_unle. now apply firstn_bytes.
  - unfold SetSize. replace (len p >? 4294967295) with false by lia. rewrite u32_id by lia.
    rewrite put_at_ok by (rewrite length_le; cbn; lia). rewrite length_le. change (OffsetSize + 4)%nat with 4%nat.
    cbn [firstn app]. change (firstn OffsetSize p) with (@nil Z). cbn [app].
    exists (le 4 (len p) ++ skipn 4 p). split; [reflexivity|]. split.
    + assert (LQ : len (le 4 (len p) ++ skipn 4 p) = len p).
      { rewrite len_app. unfold len at 1. rewrite length_le. unfold len. rewrite skipn_length. lia. }
      split; [lia|]. rewrite LQ. apply firstn_app_exact. now rewrite length_le.
    + apply skipn_app_exact. now rewrite length_le.
Qed.
Print Assumptions io_service_packet.

(* C47: packets on their way to the program when it is suspended.  The program
   has read the first c bytes of what was written; Input is saved as the rest
   followed by the pending packets, and on resumption written as one packet.  If
   c is a multiple of 8 and the pending packets, the last one excepted, have
   lengths that are multiples of 8, then the program gets to read exactly the
   bytes it would have read. *)
Definition saved_input (s : io) (c : nat) (v : bytes) : bytes := skipn c (write_loop (written s)) ++ v.

Lemma aligned_padded p : len p mod 8 = 0 -> padded p = p.
Proof.
  intros H. unfold padded. rewrite pad_len_spec by apply len_nonneg. rewrite Z_mod_zero_opp_full by assumption. apply app_nil_r.
Qed.

Lemma pad_len_mod a b : 0 <= a -> 0 <= b -> a mod 8 = 0 -> pad_len (a + b) = pad_len b.
Proof.
  intros H1 H2 H3. rewrite !pad_len_spec by lia. rewrite Z.opp_add_distr. rewrite Zplus_mod.
  rewrite Z_mod_zero_opp_full by assumption. rewrite Z.add_0_l. apply Zmod_mod.
Qed.

Lemma padded_aligned p : len (padded p) mod 8 = 0.
Proof. unfold padded. rewrite len_app. apply (padded_ok p). Qed.
Lemma write_loop_aligned ps : len (write_loop ps) mod 8 = 0.
Proof.
  unfold write_loop. induction ps as [|p ps IH]; [reflexivity|]. cbn [map concat]. rewrite len_app, Zplus_mod, padded_aligned, IH. reflexivity.
Qed.

Theorem io_input_preserved_partial : forall s c v, v = concat (evs s) ->
  Z.of_nat c mod 8 = 0 -> (c <= length (write_loop (written s)))%nat -> Forall (fun p => len p mod 8 = 0) (removelast (evs s)) ->
  firstn c (write_loop (written s)) ++ padded (saved_input s c v) = write_loop (written s ++ evs s).
Proof.
  intros s c v -> HC HL HA. unfold write_loop at 2. rewrite map_app, concat_app. fold (write_loop (written s)) (write_loop (evs s)).
  unfold saved_input, padded. set (W := write_loop (written s)) in *.
  pose proof (write_loop_aligned (written s)) as WA. fold W in WA.
  assert (SA : len (skipn c W) mod 8 = 0).
  { unfold len in *. rewrite skipn_length. rewrite Nat2Z.inj_sub by assumption. rewrite Zminus_mod, WA, HC. reflexivity. }
  rewrite len_app. rewrite pad_len_mod; try apply len_nonneg; try assumption.
  rewrite <- app_assoc, app_assoc, firstn_skipn. f_equal. fold (padded (concat (evs s))).
  clear - HA. induction (evs s) as [|p ps IH]; [reflexivity|]. unfold write_loop. cbn [map concat]. fold (write_loop ps).
  destruct ps as [|q ps]; [cbn [concat write_loop map]; now rewrite !app_nil_r|].
  cbn [removelast] in HA. inversion HA as [|? ? H1 H2]; subst. rewrite <- (IH H2). rewrite (aligned_padded p H1).
  unfold padded. rewrite len_app. rewrite pad_len_mod; try apply len_nonneg; try assumption. now rewrite app_assoc.
Qed.
Print Assumptions io_input_preserved_partial.

(* C47: the loop has at most one pending packet as long as it has not seen the
   process dead, if it started with at most one: then the condition on lengths
   holds. *)
Theorem io_input_single_pending : forall output input n pipe s0 es s,
  io_start output input n None pipe = Ok s0 -> io_run s0 es = Some s -> dead s = false -> (length (evs s) <= 1)%nat.
Proof.
  intros output input n pipe s0 es s HS HR.
  assert (I0 : dead s0 = false -> (length (evs s0) <= 1)%nat).
  { intros _. unfold io_start in HS. destruct (splitBufferedPackets n output) as [[ms tail]| |]; try discriminate. cbn [bind] in HS.
    destruct (reads tail pipe). injection HS as <-. cbn. destruct input; cbn; lia. }
  clear HS. revert s0 HR I0. induction es as [|e t IH]; intros s0 HR I0; cbn [io_run] in HR; [injection HR as <-; assumption|].
  destruct (io_step s0 e) as [s1|] eqn:S; [|discriminate]. apply (IH s1 HR). clear IH HR. intros D.
  unfold io_step in S. destruct (result s0); [discriminate|]. destruct e.
  - destruct (evs s0); [|discriminate]. destruct (initMessagePacket p); try discriminate. injection S as <-. cbn. lia.
  - unfold may_read in S. destruct (msgs s0) as [|m ms]; [destruct (evs s0) as [|v vs] eqn:V|].
    + destruct (inbox s0); [destruct (ending s0) as [? []]|destruct (handlePacket _ _) as [[]| |]; [|destruct reply as [[]|]| |]]; injection S as <-; cbn in *; rewrite ?V; cbn; lia.
    + destruct (dead s0) eqn:DD; [|discriminate].
      destruct (inbox s0); [destruct (ending s0) as [? []]|destruct (handlePacket _ _) as [[]| |]; [|destruct reply as [[]|]| |]]; injection S as <-; cbn in D; congruence.
    + destruct (dead s0) eqn:DD; [|destruct (evs s0); discriminate].
      destruct (evs s0); (destruct (inbox s0); [destruct (ending s0) as [? []]|destruct (handlePacket _ _) as [[]| |]; [|destruct reply as [[]|]| |]]); injection S as <-; cbn in D; congruence.
  - destruct (msgs s0); [discriminate|]. injection S as <-. cbn in *. now apply I0.
  - destruct (evs s0) as [|v vs] eqn:V; [discriminate|]. injection S as <-. cbn in *. specialize (I0 D). lia.
  - injection S as <-. discriminate.
Qed.
Print Assumptions io_input_single_pending.

(* C47 refuted: a service's 9 byte packet is pending when the process dies; it
   had asked for service discovery, the 11 byte reply is also pending.  The
   saved Input has them without padding in between: the bytes which the program
   reads after resumption are not those packets (it reads the first one and
   then an invalid size). *)
Definition event9 : bytes := [9;0;0;0; 0;0; 1; 0; 77].
Definition reply11 : bytes := [11;0;0;0; 255;255; 0; 0; 1;0; 1].
Definition discover : bytes := [16;0;0;0; 255;255; 0; 0; 1;0; 3;97;98;99;100;0].
Theorem io_input_preserved_refuted : exists s0 s o v,
  io_start [] [] 1 None [discover] = Ok s0 /\
  io_run s0 [IMessage event9; IDead; IRead (Some (reply11, 0%nat)); IRead None] = Some s /\
  result s = Some (OFrozen o v) /\ evs s = [event9; reply11] /\ written s = [] /\
  reads [] [write_loop (evs s)] = ([event9; reply11], ([], REOF)) /\
  reads [] [padded (saved_input s 0 v)] = ([event9], ([], RBadSize)).
Proof. eexists. eexists. eexists. eexists. split; [reflexivity|]. split; [vm_compute; reflexivity|]. repeat split. Qed.
Print Assumptions io_input_preserved_refuted.

(* C47 refuted, second case: the program has read 9 bytes of a 16 byte frame
   when it is suspended: 7 bytes are saved, and padded to 8 on resumption. *)
Theorem io_input_partial_read_refuted : exists s c, (c <= length (write_loop (written s)))%nat /\ evs s = [] /\
  written s = [event9] /\ firstn c (write_loop (written s)) ++ padded (saved_input s c []) <> write_loop (written s ++ evs s).
Proof.
  exists (IO [] [] false 0 [] ([], REOF) [] [event9] None), 9%nat. cbn. repeat split; try lia. discriminate.
Qed.
Print Assumptions io_input_partial_read_refuted.
