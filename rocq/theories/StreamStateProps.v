(* StreamStateProps.v: property C05. *)
From Verif Require Import BaseLemmas StreamState StreamStateProofs.

(* C05: marshaling a state.  For every state whose fields fit in a
   non-negative int32, the announced size is the number of bytes written, a
   destination of at least that size suffices, and unmarshaling the written
   bytes followed by anything returns the same state and exactly the rest;
   if the data exceeds the configured maximum it is an error.  The hypothesis
   on flags is the one the code checks: a stream that no longer sends has no
   reader and no buffered data. *)
Theorem stream_state_roundtrip : forall s dest rest max,
  0 <= Flags s < 2 ^ 31 -> 0 <= Subscribed s < 2 ^ 31 -> len (Data s) < 2 ^ 31 ->
  (has FlagSendReceiving (Flags s) = false -> has FlagReadWriting (Flags s) = false /\ Data s = []) ->
  exists n, MarshaledSize s = Ok n /\
    (n <= len dest ->
     exists w tail, Marshal s dest = Ok (w, tail) /\ len w = n /\ tail = skipn (Z.to_nat n) dest /\
       (len (Data s) <= max -> Unmarshal (w ++ rest) max = Ok (s, rest)) /\
       (max < len (Data s) -> Unmarshal (w ++ rest) max = Err) /\
       (forall k, (k < length w)%nat -> Unmarshal (firstn k w) max = Err)).
Proof.
  intros s dest rest max HF HS HD HI. exists (len (enc s)). split; [now apply size_ok|]. intros HL.
  exists (enc s), (skipn (length (enc s)) dest). split; [now apply marshal_ok|]. split; [reflexivity|].
  split; [unfold len; now rewrite Nat2Z.id|].
  assert (H : state_ok s) by (repeat split; (lia || now apply HI)).
  split; [|split].
  - intros HM. rewrite unmarshal_enc by assumption. replace (len (Data s) >? max) with false by lia. reflexivity.
  - intros HM. rewrite unmarshal_enc by assumption. replace (len (Data s) >? max) with true by lia. reflexivity.
  - intros k Hk. now apply unmarshal_truncated.
Qed.
Print Assumptions stream_state_roundtrip.

Example stream_state_roundtrip_ex :
  MarshaledSize (mkState 7 300 [1; 2; 3]) = Ok 7 /\
  Marshal (mkState 7 300 [1; 2; 3]) (repeat 0 8) = Ok ([7; 172; 2; 3; 1; 2; 3], [0]) /\
  Unmarshal [7; 172; 2; 3; 1; 2; 3; 99] 3 = Ok (mkState 7 300 [1; 2; 3], [99]) /\
  Unmarshal [7; 172; 2; 3; 1; 2; 3; 99] 2 = Err.
Proof. repeat split; vm_compute; reflexivity. Qed.

(* C05: unmarshaling arbitrary bytes never panics; an accepted state is one
   the first theorem covers, its data is within the limit, and what is left is
   a proper suffix of the input. *)
Theorem stream_state_untrusted : forall src max, is_bytes src ->
  Unmarshal src max = Err \/
  exists s k, Unmarshal src max = Ok (s, skipn k src) /\ (3 <= k <= length src)%nat /\
    (0 <= Flags s < 2 ^ 31 /\ 0 <= Subscribed s < 2 ^ 31 /\ len (Data s) < 2 ^ 31 /\
     (has FlagSendReceiving (Flags s) = false -> has FlagReadWriting (Flags s) = false /\ Data s = [])) /\
    len (Data s) <= max /\ is_bytes (Data s).
Proof. exact unmarshal_untrusted. Qed.
Print Assumptions stream_state_untrusted.

(* C05 for the two-way Stream (the form services use). *)
Theorem stream_pair_roundtrip : forall r w dest rest maxSend wbuf,
  state_ok r -> state_ok w -> len (Data r) <= maxSend -> len (Data w) <= wbuf ->
  exists n, StreamMarshaledSize r w = Ok n /\
    (n <= len dest ->
     exists b tail, StreamMarshal r w dest = Ok (b, tail) /\ len b = n /\ tail = skipn (Z.to_nat n) dest /\
       StreamUnmarshal (b ++ rest) maxSend wbuf = Ok (r, w, rest)).
Proof.
  intros r w dest rest ms wb Hr Hw Dr Dw. exists (len (enc r) + len (enc w)).
  destruct Hr as (r1 & r2 & r3 & r4), Hw as (w1 & w2 & w3 & w4).
  unfold StreamMarshaledSize, StreamMarshal, StreamUnmarshal. rewrite !size_ok by assumption. cbn [bind].
  split; [reflexivity|]. intros HL. pose proof (len_nonneg (enc w)). pose proof (len_nonneg (enc r)).
  rewrite marshal_ok by (try assumption; lia). cbn [bind].
  rewrite marshal_ok; [|assumption..|unfold len in *; rewrite skipn_length; lia]. cbn [bind].
  do 2 eexists. split; [reflexivity|]. split; [apply len_app|]. split.
  - rewrite skipn_skipn. f_equal. unfold len. lia.
  - rewrite <- app_assoc. rewrite unmarshal_enc by (repeat split; try lia; now apply r4).
    replace (len (Data r) >? ms) with false by lia. cbn [bind].
    rewrite unmarshal_enc by (repeat split; try lia; now apply w4).
    replace (len (Data w) >? wb) with false by lia. reflexivity.
Qed.
Print Assumptions stream_pair_roundtrip.

Example stream_pair_ex : state_ok (mkState 7 300 [1; 2]) /\ state_ok (mkState 1 0 []) /\
  StreamUnmarshal ([7; 172; 2; 2; 1; 2] ++ [1; 0; 0] ++ [5]) 10 0 = Ok (mkState 7 300 [1; 2], mkState 1 0 [], [5]).
Proof.
  split; [|split; [|vm_compute; reflexivity]].
  - unfold state_ok, has, len; cbn. repeat split; try lia; discriminate.
  - unfold state_ok, has, len; cbn. repeat split; try lia.
Qed.

(* C05, refuted part: marshaling does not work for every state a stream can
   have.  The subscription counter is a uint32 that the guest program
   increases freely; from 2^31 on both the size and the encoding functions
   crash.  (ReadStreamProps.v shows the counter is reachable.) *)
Theorem stream_state_marshal_total_refuted :
  exists s, 0 <= Flags s < 2 ^ 32 /\ 0 <= Subscribed s < 2 ^ 32 /\ Data s = [] /\
    MarshaledSize s = Panic /\ Marshal s (repeat 0 9) = Panic.
Proof. exists (mkState 7 (2 ^ 31) []). cbn [Flags Subscribed Data]. repeat split; try lia; vm_compute; reflexivity. Qed.
Print Assumptions stream_state_marshal_total_refuted.

(* C05, refuted part: a state with SendReceiving cleared but data left is
   marshaled to bytes that cannot be unmarshaled. *)
Theorem stream_state_impossible_rejected : forall s dest w tail rest max,
  0 <= Flags s < 2 ^ 31 -> 0 <= Subscribed s < 2 ^ 31 -> len (Data s) < 2 ^ 31 ->
  has FlagSendReceiving (Flags s) = false -> (has FlagReadWriting (Flags s) = true \/ Data s <> []) ->
  len (enc s) <= len dest -> Marshal s dest = Ok (w, tail) -> Unmarshal (w ++ rest) max = Err.
Proof.
  intros s dest w tail rest max HF HS HD E HI HL HM. rewrite marshal_ok in HM by assumption.
  injection HM as <- <-. now apply unmarshal_impossible.
Qed.
Print Assumptions stream_state_impossible_rejected.

Example stream_state_impossible_ex :
  Marshal (mkState 2 0 []) (repeat 0 3) = Ok ([2; 0; 0], []) /\ Unmarshal [2; 0; 0] 100 = Err.
Proof. split; vm_compute; reflexivity. Qed.
