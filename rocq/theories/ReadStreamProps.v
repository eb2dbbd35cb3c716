(* ReadStreamProps.v: properties C06, C07, C08 (read streams).

   [rrun M (rinit x hasr) es = Some s]: the stream was created or unmarshaled
   in state x, given a reader (hasr) or not, and the events es happened, in
   that order, each enabled; s is the state reached.  es may contain any
   number of suspensions (EStopTransfer ... EResume).  The hypotheses on x are
   those that Unmarshal guarantees (stream_state_untrusted): any restored
   stream is covered, and the initial state of a new stream. *)
From Verif Require Import BaseLemmas StreamState StreamStateProofs ReadStream ReadStreamProofs ReadStreamProofs2 ReadStreamProofs3.

(* What Unmarshal(max) accepts. *)
Definition restorable (x : State) (max : Z) : Prop :=
  0 <= Flags x < 2 ^ 31 /\ 0 <= Subscribed x < 2 ^ 31 /\ len (Data x) <= max /\
  (has FlagSendReceiving (Flags x) = false -> has FlagReadWriting (Flags x) = false /\ Data x = []).

Lemma restorable_start L q x : L < 2 ^ 31 -> restorable x L ->
  (q = true -> has FlagSubscribing (Flags x) = false -> has FlagReadWriting (Flags x) = true -> Data x <> [] \/ Subscribed x <> 0) ->
  start_ok L q x.
Proof. intros HL (H1 & H2 & H3 & H4) H5. split; [|split; assumption]. repeat split; try lia; now apply H4. Qed.

Lemma reach M L q x hasr es s : 16 < M < 2 ^ 31 -> M - 16 <= L -> L <= M -> restorable x L ->
  (q = true -> has FlagSubscribing (Flags x) = false -> has FlagReadWriting (Flags x) = true -> Data x <> [] \/ Subscribed x <> 0) ->
  rrun M (rinit x hasr) es = Some s -> Inv L (negb (has FlagSendReceiving (Flags x))) q s.
Proof.
  intros HM H1 H2 HR HQ E. eapply Inv_run; try eassumption. apply Inv_init. apply restorable_start; try assumption. lia.
Qed.

Lemma noq (x : State) : false = true -> has FlagSubscribing (Flags x) = false -> has FlagReadWriting (Flags x) = true -> Data x <> [] \/ Subscribed x <> 0.
Proof. discriminate. Qed.

(* C06: in every history, the data delivered to the program is within the flow
   it granted (the outstanding subscription of the restored state plus the
   increments since; data already buffered in the restored state was granted
   before). *)
Theorem read_stream_flow_bound : forall M x hasr es s,
  16 < M < 2 ^ 31 -> restorable x M -> rrun M (rinit x hasr) es = Some s ->
  len (concat (out s)) <= len (Data x) + Subscribed x + flow_granted es.
Proof.
  intros M x hasr es s HM HR E. pose proof (reach M M false x hasr es s HM ltac:(lia) ltac:(lia) HR (noq x) E) as ((A1 & A2 & A3 & A4 & _) & HB & _).
  apply run_ghost in E. cbn [granted rinit start] in E. destruct E as [_ E].
  destruct HB as [B1 _ _ _ _ _ _ _ _]. rewrite <- B1, len_app in A4. pose proof (len_nonneg (pending s)). cbn in E. lia.
Qed.
Print Assumptions read_stream_flow_bound.

(* C06: no packet exceeds the maximum send size (a payload has a 16 byte
   header), and an empty packet (the EOF mark) is only ever the last one. *)
Theorem read_stream_packets : forall M x hasr es s,
  16 < M < 2 ^ 31 -> restorable x (M - 16) -> rrun M (rinit x hasr) es = Some s ->
  Forall (fun d => len d + 16 <= M) (out s) /\
  (forall a d b, out s = a ++ d :: b -> d = [] -> b = []).
Proof.
  intros M x hasr es s HM HR E. pose proof (reach M (M - 16) false x hasr es s HM ltac:(lia) ltac:(lia) HR (noq x) E) as (_ & HB & _).
  destruct HB as [_ _ _ _ _ [B6 _] B7 B8 _]. split; [eapply Forall_impl; [|exact B6]; cbn; lia|].
  assert (K : Forall nonempty (out s) \/ exists o, out s = o ++ [[]] /\ Forall nonempty o).
  { destruct (send s); [left; now apply B7|]. destruct (B8 eq_refl) as [[_ K]|[[_ (o & K1 & K2)]|[_ K]]].
    - now left.
    - right. now exists o.
    - left. rewrite K. constructor. }
  intros a d b EO ->. destruct K as [K|(o & K1 & K2)].
  - rewrite EO in K. apply Forall_app in K. destruct K as [_ K]. inversion K as [|? ? K3 K4]. now destruct K3.
  - destruct b as [|c b] using rev_ind; [reflexivity|]. exfalso. rewrite K1 in EO.
    change (a ++ [] :: b ++ [c]) with (a ++ ([] :: b) ++ [c]) in EO. rewrite app_assoc in EO.
    apply app_inj_tail in EO. destruct EO as [-> _]. apply Forall_app in K2. destruct K2 as [_ K2]. inversion K2 as [|? ? K3 K4]. now destruct K3.
Qed.
Print Assumptions read_stream_packets.

(* A run with a new stream: subscribe 5, read 3 bytes, deliver, suspend, resume,
   read the rest with a late EOF. *)
Definition demo_events : list rsev :=
  [ESubscribe 5; EPoke; ETick; ETick; EWake; ETick; ERead [1; 2; 3] NoErr; ETick; ETick; EAccept;
   ETick; ERead [4] NoErr; EStopTransfer; ETick; ETick; EWake; ETick; EResume true;
   ETick; ETick; EAccept; ETick; ERead [] EOF; ETick; ETick; EAccept; ETick; ETick; ETick; EFinish; EPoke; EWake; ETick; ETick; ETick; ETick].
Example read_stream_demo : exists s, rrun 100 (rinit InitialState true) demo_events = Some s /\
  pc s = PDone /\ out s = [[1; 2; 3]; [4]; []] /\ state_of s = mkState 0 1 [] /\ restorable InitialState (100 - 16).
Proof. eexists. split; [vm_compute; reflexivity|]. repeat split; cbn; lia || (discriminate || reflexivity). Qed.

(* C06, refuted part: a restored stream may hold more data than fits in a
   packet: the limit applied when unmarshaling does not include the header, so
   a crafted snapshot makes the stream send a packet larger than the maximum
   send size (which the runtime answers with a panic, runtime/io.go:309-312). *)
Theorem read_stream_packet_limit_refuted : exists M x es s,
  16 < M < 2 ^ 31 /\ restorable x M /\ rrun M (rinit x true) es = Some s /\
  exists d, In d (out s) /\ len d + 16 > M.
Proof.
  exists 100, (mkState 7 0 (repeat 1 100)), [ETick; ETick; EAccept]. eexists. split; [lia|]. split.
  - repeat split; cbn; try lia; discriminate.
  - split; [vm_compute; reflexivity|]. exists (repeat 1 100). split; [now left|vm_compute; reflexivity].
Qed.
Print Assumptions read_stream_packet_limit_refuted.

(* C07: in every history, what was delivered followed by what the stream still
   holds is exactly the data of the restored state followed by everything the
   reader returned; when the transfer has returned, what it holds is the Data
   that is marshaled. *)
Theorem read_stream_no_loss : forall M x hasr es s,
  16 < M < 2 ^ 31 -> restorable x M -> rrun M (rinit x hasr) es = Some s ->
  concat (out s) ++ pending s = Data x ++ reader_bytes es /\
  (pc s = PDone -> pending s = Data (state_of s)).
Proof.
  intros M x hasr es s HM HR E. pose proof (reach M M false x hasr es s HM ltac:(lia) ltac:(lia) HR (noq x) E) as (_ & HB & _).
  apply run_ghost in E. destruct E as [E _]. destruct HB as [B1 _ B3 _ _ _ _ _ _]. split.
  - rewrite B1, E. reflexivity.
  - intros PC. unfold pending. now rewrite (B3 PC).
Qed.
Print Assumptions read_stream_no_loss.

(* C07: the stream does not panic in any history, except that resuming (more
   precisely marshaling at suspension) panics if the program had an
   outstanding subscription of 2^31 bytes or more. *)
Theorem read_stream_panics_only_on_large_subscription : forall M x hasr es e s s',
  16 < M < 2 ^ 31 -> restorable x M -> rrun M (rinit x hasr) es = Some s -> step M s e = Some s' ->
  pc s <> PCrash -> pc s' = PCrash -> (exists hasr', e = EResume hasr') /\ 2 ^ 31 <= Subscribed (state_of s).
Proof.
  intros M x hasr es e s s' HM HR E E2 N C. pose proof (reach M M false x hasr es s HM ltac:(lia) ltac:(lia) HR (noq x) E) as HI.
  exact (crash_step M M _ _ s e s' HM ltac:(lia) ltac:(lia) HI E2 N C).
Qed.
Print Assumptions read_stream_panics_only_on_large_subscription.

(* C07, refuted part: that state is reached by a program which grants flow
   freely: two subscriptions, then suspension: the server panics. *)
Theorem read_stream_suspend_total_refuted : exists M es s,
  16 < M < 2 ^ 31 /\ rrun M (rinit InitialState true) es = Some s /\ pc s = PCrash /\
  Forall (fun e => forall inc, e = ESubscribe inc -> 0 <= inc < 2 ^ 31) es.
Proof.
  exists 65536, [ESubscribe 2147483647; EPoke; ESubscribe 2; EPoke; EStopTransfer;
                 ETick; ETick; EWake; ETick; ERead [1] NoErr; ETick; ETick; EWake; ETick; EResume false].
  eexists. split; [lia|]. split; [vm_compute; reflexivity|]. split; [reflexivity|].
  repeat (apply Forall_cons; [intros inc H; try discriminate H; injection H as <-; lia|]). apply Forall_nil.
Qed.
Print Assumptions read_stream_suspend_total_refuted.

(* C08: when the sending side of a stream has completed, the last packet
   delivered is the EOF mark, in every history, except if the reader was
   closed (end, error, cancellation, or absent reader) while a data packet was
   pending. *)
Theorem read_stream_eof_partial : forall M x hasr es s,
  16 < M < 2 ^ 31 -> restorable x M -> has FlagSendReceiving (Flags x) = true ->
  rrun M (rinit x hasr) es = Some s -> send s = false ->
  cut s = true \/ (exists o, out s = o ++ [[]]).
Proof.
  intros M x hasr es s HM HR HF E SE. pose proof (reach M M false x hasr es s HM ltac:(lia) ltac:(lia) HR (noq x) E) as (_ & HB & _).
  destruct HB as [_ _ _ _ _ _ _ B8 _]. rewrite HF in B8. destruct (B8 SE) as [[K _]|[[_ (o & K1 & K2)]|[K _]]].
  - now left.
  - right. now exists o.
  - discriminate.
Qed.
Print Assumptions read_stream_eof_partial.

(* C08, refuted: a reader that returns its last bytes together with io.EOF (as
   io.Reader allows): the stream completes and the program gets no EOF. *)
Theorem read_stream_eof_refuted : exists M es s,
  16 < M < 2 ^ 31 /\ rrun M (rinit InitialState true) es = Some s /\ pc s = PDone /\ send s = false /\
  rerror s = false /\ out s = [[1; 2]].
Proof.
  exists 100, [ESubscribe 5; EPoke; ETick; ETick; EWake; ETick; ERead [1; 2] EOF; ETick; ETick; EAccept;
               ETick; EFinish; EPoke; ETick; ETick; ETick].
  eexists. split; [lia|]. split; [vm_compute; reflexivity|]. repeat split; reflexivity.
Qed.
Print Assumptions read_stream_eof_refuted.

(* C08: once the reader has ended, the transfer needs only the program side to
   receive: within four steps of its own the next packet (data or EOF) is
   delivered and the sending side completes. *)
Theorem read_stream_eof_progress : forall M x hasr es s,
  16 < M < 2 ^ 31 -> restorable x M -> rrun M (rinit x hasr) es = Some s ->
  r s = false -> send s = true -> pc s <> PStop -> pc s <> PDone -> pc s <> PCrash ->
  exists es' s', (length es' <= 4)%nat /\ Forall (fun e => e = ETick \/ e = EAccept) es' /\
    rrun M s es' = Some s' /\ send s' = false /\ exists d, out s' = out s ++ [d].
Proof.
  intros M x hasr es s HM HR E. pose proof (reach M M false x hasr es s HM ltac:(lia) ltac:(lia) HR (noq x) E) as HI.
  exact (progress M M _ _ s HI).
Qed.
Print Assumptions read_stream_eof_progress.

(* No wakeup is lost: whenever the transfer is blocked with nothing that could
   wake it (no packet to send, no token in the wakeup channel, no call in
   progress), there is nothing to do: the subscription has not been finished,
   and if there is a reader, all subscribed bytes have been read.  The third
   hypothesis excludes crafted snapshots only: it is preserved by suspension. *)
Theorem read_stream_no_lost_wakeup : forall M x hasr es s,
  16 < M < 2 ^ 31 -> restorable x M ->
  (has FlagSubscribing (Flags x) = false -> has FlagReadWriting (Flags x) = true -> Data x <> [] \/ Subscribed x <> 0) ->
  rrun M (rinit x hasr) es = Some s ->
  pc s = PSelB -> sending s = false -> token s = false -> poking s = false ->
  sub s = true /\ (r s = true -> subscribed s = readpos s).
Proof.
  intros M x hasr es s HM HR HQ E PC SG TK PO.
  pose proof (reach M M true x hasr es s HM ltac:(lia) ltac:(lia) HR (fun _ => HQ) E) as (_ & HB & HC).
  destruct (HC eq_refl) as [C1 C2 C3 C4 C5 C6 C7]. destruct HB as [_ B2 _ B4 B5 _ _ _ _]. rewrite PC in B5. destruct B5 as [_ B5].
  destruct (B5 SG) as [ND RS]. split.
  - destruct (sub s) eqn:SU; [reflexivity|]. exfalso. destruct (r s) eqn:RR.
    + destruct (C1 eq_refl eq_refl TK PO) as [H|[H|[H|[H|[H|H]]]]]; try congruence.
      * apply H. apply B2; congruence.
      * destruct (C6 PC SG eq_refl) as [H'|[H'|H']]; congruence.
    + destruct (C5 (or_intror PC) (RS eq_refl)) as [H|[H|H]]; congruence.
  - intros RR. destruct (C6 PC SG RR) as [H|[H|H]]; congruence.
Qed.
Print Assumptions read_stream_no_lost_wakeup.

Example read_stream_blocked_ex : exists s, rrun 100 (rinit InitialState true) [ETick; ETick] = Some s /\
  pc s = PSelB /\ sending s = false /\ token s = false /\ poking s = false.
Proof. eexists. split; [vm_compute; reflexivity|]. repeat split. Qed.
