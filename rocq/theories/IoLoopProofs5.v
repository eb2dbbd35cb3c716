From Verif Require Import BaseLemmas Packet PacketProofs IoLoop IoLoopSpec IoLoopProofs IoLoopProofs2 IoLoopProofs3.

Lemma pad_len_spec n : 0 <= n -> pad_len n = (- n) mod 8.
Proof.
  intros H. unfold pad_len. change 7 with (Z.ones 3). rewrite Z.land_ones by lia. change (2 ^ 3) with 8.
  pose proof (Z.mod_pos_bound n 8 ltac:(lia)) as B.
  assert (n mod 8 = 0 \/ n mod 8 <> 0) as [E|E] by lia.
  - rewrite E. rewrite Z_mod_zero_opp_full by assumption. reflexivity.
  - rewrite Z_mod_nz_opp_full by assumption. set (r := n mod 8) in *. clearbody r.
    assert (r = 1 \/ r = 2 \/ r = 3 \/ r = 4 \/ r = 5 \/ r = 6 \/ r = 7) as [->|[->|[->|[->|[->|[->| ->]]]]]] by lia; reflexivity.
Qed.

Lemma zeros_len n : len (zeros n) = Z.of_nat n.
Proof. unfold len, zeros. now rewrite repeat_length. Qed.

Lemma padded_ok p : padding_ok p (zeros (Z.to_nat (pad_len (len p)))).
Proof.
  pose proof (len_nonneg p). unfold padding_ok. rewrite zeros_len, pad_len_spec by assumption.
  pose proof (Z.mod_pos_bound (- len p) 8 ltac:(lia)). rewrite Z2Nat.id by lia. split; [lia|].
  rewrite Zplus_mod_idemp_r. now rewrite Z.add_opp_diag_r.
Qed.

Lemma write_loop_stream ps : write_loop ps = stream (map (fun p => (p, zeros (Z.to_nat (pad_len (len p))))) ps).
Proof. unfold write_loop, stream. now rewrite map_map. Qed.

Lemma reads_all fs pipe : Forall frame_ok fs -> concat pipe = stream fs -> reads [] pipe = (map fst fs, ([], REOF)).
Proof.
  intros HF HC. unfold reads.
  assert (HC' : concat pipe = firstn (length (stream fs)) (skipn 0 (stream fs))) by (cbn [skipn]; now rewrite firstn_all).
  destruct (read_loop_cut fs (S (length (@nil Z) + length (concat pipe))) 0 (length (stream fs)) pipe HF
    ltac:(rewrite HC; cbn [length]; lia) ltac:(now right) ltac:(lia) HC') as (a & b & r & e & EA & EL & ER & EE & EX1 & EX2).
  cbn [firstn] in EE. rewrite EE. subst fs. rewrite stream_app, app_length in EL.
  assert (b = [] /\ r = 0%nat) as [-> ->].
  { destruct b as [|f b]; [cbn in *; split; [reflexivity|lia]|].
    exfalso. apply Forall_app in HF. destruct HF as [_ HF]. inversion HF; subst. pose proof (frame_len8 f H1).
    rewrite stream_cons, app_length in EL. cbn [first_frame] in ER. lia. }
  rewrite app_nil_r. cbn [firstn stream map concat]. f_equal. f_equal.
  destruct a as [|x a]; [now rewrite (EX2 eq_refl)|now rewrite (EX1 ltac:(discriminate))].
Qed.

Lemma reads_bad fs pipe h : Forall frame_ok fs -> (8 <= length h)%nat -> unle (firstn 4 h) < 8 \/ unle (firstn 4 h) > 65536 ->
  concat pipe = stream fs ++ h -> reads [] pipe = (map fst fs, ([], RBadSize)).
Proof.
  intros HF HL HB HC. unfold reads.
  pose proof (stream_length fs HF) as SL.
  pose proof (read_loop_frames fs (S (length (@nil Z) + length (concat pipe))) 0 pipe h (REnd [] RBadSize) HF) as K.
  cbn [firstn skipn] in K. apply K; try assumption; try lia.
  - rewrite HC, app_length. cbn [length]. lia.
  - intros _ pipe' HP _. now apply (read_one_bad h).
Qed.

(* Arbitrary input *)
Lemma header_ok (h : bytes) q : is_bytes h -> (4 <= length h)%nat -> 8 <= unle (firstn 4 h) <= 65536 ->
  firstn 4 q = firstn 4 h -> len q = unle (firstn 4 h) -> packet_ok q.
Proof.
  intros HB HL HS HQ HLen. split; [lia|]. rewrite HQ, HLen.
  assert (L4 : length (firstn 4 h) = 4%nat) by (rewrite firstn_length; lia).
  rewrite <- L4 at 2. symmetry. apply le_unle. now apply Forall_firstn.
Qed.

Lemma Align_ge x : x <= Align x.
Proof. rewrite Align_spec. pose proof (Z.div_mod (x + 7) 8 ltac:(lia)). pose proof (Z.mod_pos_bound (x + 7) 8 ltac:(lia)). lia. Qed.

Lemma firstn_bytes n l : is_bytes l -> is_bytes (firstn n l).
Proof. apply Forall_firstn. Qed.
Lemma skipn_bytes n l : is_bytes l -> is_bytes (skipn n l).
Proof. apply Forall_skipn. Qed.

Lemma read_one_good partial pipe p pipe' : is_bytes partial -> is_bytes (concat pipe) ->
  read_one partial pipe = (RPacket p, pipe') -> good p /\ is_bytes (concat pipe').
Proof.
  intros HP HB E. unfold read_one in E.
  destruct (read_full (HeaderSize - length partial) pipe) as [h pipe1] eqn:R1. destruct (read_full_spec _ _ _ _ R1) as [H1 H2].
  set (header := firstn HeaderSize partial ++ h) in *.
  destruct (Nat.ltb_spec (length header) HeaderSize) as [?|LH]; [discriminate|]. unfold HeaderSize in LH.
  assert (HBH : is_bytes header) by (apply is_bytes_app; split; [now apply firstn_bytes|rewrite H1; now apply firstn_bytes]).
  destruct (_ || _) eqn:Q in E; [discriminate|].
  set (size := unle (firstn 4 header)) in *.
  set (buf := header ++ firstn (Z.to_nat (Align size) - HeaderSize) (skipn HeaderSize partial)) in *.
  destruct (read_full (Z.to_nat (Align size) - length buf) pipe1) as [b pipe2] eqn:R2. destruct (read_full_spec _ _ _ _ R2) as [H3 H4].
  destruct (Nat.ltb_spec (length (buf ++ b)) (Z.to_nat (Align size))) as [?|LB]; [discriminate|]. injection E as <- <-.
  assert (B1 : is_bytes (concat pipe1)) by (rewrite H2; now apply skipn_bytes).
  assert (BB : is_bytes (buf ++ b)).
  { apply is_bytes_app. split; [|rewrite H3; now apply firstn_bytes]. apply is_bytes_app. split; [assumption|]. now apply firstn_bytes, skipn_bytes. }
  unfold maxPacketSize in Q. pose proof (Align_ge size).
  assert (LL : length (firstn (Z.to_nat size) (buf ++ b)) = Z.to_nat size) by (rewrite firstn_length; lia).
  split; [split; [|now apply firstn_bytes]|rewrite H4; now apply skipn_bytes].
  apply (header_ok header); try assumption; try lia.
  - unfold buf. rewrite <- app_assoc. rewrite firstn_firstn, Nat.min_l by lia. apply firstn_app_le. lia.
  - fold size. unfold len. rewrite LL. lia.
Qed.

Lemma read_loop_good fuel : forall partial pipe, is_bytes partial -> is_bytes (concat pipe) -> Forall good (fst (read_loop fuel partial pipe)).
Proof.
  induction fuel as [|k IH]; intros partial pipe HP HB; [constructor|]. cbn [read_loop].
  destruct (read_one partial pipe) as [[p|b e] pipe'] eqn:R; [|constructor].
  destruct (read_one_good _ _ _ _ HP HB R) as [G1 G2]. specialize (IH [] pipe' ltac:(constructor) G2).
  destruct (read_loop k [] pipe') as [ps e]. cbn in *. now constructor.
Qed.

Lemma split_loop_good fuel n : forall buf ms tail, is_bytes buf -> split_loop fuel n buf = Ok (ms, tail) ->
  Forall (svc_packet n) ms /\ is_bytes tail.
Proof.
  induction fuel as [|k IH]; intros buf ms tail HB E; [discriminate|]. cbn [split_loop] in E.
  destruct (Nat.ltb_spec (length buf) HeaderSize) as [?|L]; [injection E as <- <-; split; [constructor|assumption]|]. unfold HeaderSize in L.
  set (size := unle (firstn 4 buf)) in *. destruct (_ || _) eqn:Q in E; [discriminate|].
  destruct (u32 (len buf) <? size) eqn:Q2; [injection E as <- <-; split; [constructor|assumption]|].
  set (p := firstn (Z.to_nat size) buf) in *. unfold maxPacketSize in Q.
  assert (LU : u32 (len buf) <= len buf) by (apply Z.mod_le; pose proof (len_nonneg buf); lia).
  assert (LP : len p = size) by (unfold p, len in *; rewrite firstn_length; lia).
  assert (L8 : (8 <= length p)%nat) by (unfold len in LP; lia).
  assert (PK : packet_ok p).
  { apply (header_ok buf); try assumption; try lia. unfold p. rewrite firstn_firstn, Nat.min_l by lia. reflexivity. }
  assert (BP : is_bytes p) by now apply firstn_bytes.
  rewrite (Code_ok p L8) in E. cbn [bind] in E. destruct (_ <? 0) eqn:Q3 in E; [discriminate|].
  destruct (checkServicePacket n p) as [q| |] eqn:K; try discriminate. cbn [bind] in E.
  destruct (split_loop k n (skipn (Z.to_nat size) buf)) as [[ms' t']| |] eqn:R; try discriminate. cbn [bind] in E. injection E as <- <-.
  destruct (IH _ _ _ (skipn_bytes _ _ HB) R) as [G1 G2]. split; [|assumption]. constructor; [|assumption].
  assert (q = p) as ->.
  { unfold checkServicePacket in K. rewrite (Code_ok p L8) in K. cbn [bind] in K. destruct (_ >=? n) in K; [discriminate|].
    destruct (Domain p); try discriminate. cbn [bind] in K. destruct (_ || _ || _) in K; [congruence|].
    destruct (_ =? _) in K; [|discriminate]. destruct (_ <? _) in K; congruence. }
  split; [assumption|]. split; [assumption|]. eexists. split; [apply (Code_ok p L8)|lia].
Qed.

Lemma nth_firstn1 (p : bytes) k : (k < length p)%nat -> firstn 1 (skipn k p) = [nth k p 0].
Proof.
  revert p; induction k as [|k IH]; intros [|x p] H; cbn [length] in H; try lia; [reflexivity|]. cbn [skipn nth]. apply IH. lia.
Qed.

Lemma Domain_ok p : (8 <= length p)%nat -> is_bytes p -> Domain p = Ok (nth 6 p 0 mod 16).
Proof.
  intros H HB. unfold Domain. rewrite get_le_ok by (cbn; lia). cbn [bind]. change OffsetDomain with 6%nat. rewrite nth_firstn1 by lia.
  cbn [unle]. rewrite Z.mul_0_r, Z.add_0_r. f_equal. change 15 with (Z.ones 4). now rewrite Z.land_ones by lia.
Qed.

Lemma s16_small x : 0 <= x < 2 ^ 15 -> s16 x = x.
Proof. intros H. apply s16_id. lia. Qed.

Lemma check_iff n p : good p -> (exists c, Code p = Ok c /\ 0 <= c) -> (checkServicePacket n p = Ok p <-> deliverable n p).
Proof.
  intros [[G1 G1'] G2] (c & HC & HC0). assert (L8 : (8 <= length p)%nat) by (unfold len in G1; lia).
  pose proof (code_range p G2 L8) as CR. pose proof (Code_ok p L8) as CK. rewrite CK in HC. injection HC as HC.
  pose proof (s16_nonneg _ CR) as SN. unfold checkServicePacket, deliverable. rewrite CK. cbn [bind]. rewrite (Domain_ok p L8 G2). cbn [bind].
  set (x := unle _) in *. set (d := nth 6 p 0 mod 16) in *. assert (0 <= d < 16) by (apply Z.mod_pos_bound; lia).
  rewrite s16_small by lia. unfold DomainCall, DomainInfo, DomainFlow, DomainData. change (Z.of_nat DataHeaderSize) with 16.
  destruct (x >=? n) eqn:Q1; [split; [discriminate|lia]|].
  destruct ((d =? 0) || (d =? 1) || (d =? 2)) eqn:Q2; [split; [lia|reflexivity]|].
  destruct (d =? 3) eqn:Q3; [|split; [discriminate|lia]].
  destruct (len p <? 16) eqn:Q4; (split; [try discriminate; lia|try reflexivity; lia]).
Qed.
