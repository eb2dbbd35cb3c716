(* OriginProps.v: properties C20 (stream ids of the origin service), C21 (its
   state), C50 (termination of its suspension) and C51 (connection limit). *)
From Verif Require Import BaseLemmas Varint VarintProofs StreamState StreamStateProofs Origin OriginProofs OriginProofs2.

(* The instance after any history: a fresh or restored one. *)
Definition reached (restored : list Z) (acc : Z) (es : list oevent) (s : org) : Prop :=
  NoDup restored /\ 0 <= acc < 2 ^ 31 /\ orun (ostart restored acc) es = Some s.

Lemma reached_inv r a es s : reached r a es s -> OInv s.
Proof. intros (N & A & R). exact (OInv_run _ _ _ (OInv_start _ _ N A) R). Qed.

(* A history with two connections, one of them answered twice over. *)
Definition hist : list oevent :=
  [EAccept; EAccept; EConnect; EConnect; EWake 1; ESend 1; EGuard 1; EWake 0; ESend 0; EGuard 0].
Example reached_example : exists s, reached [0; 3] 0 hist s /\ conns s = [PStream 2; PStream 1] /\ sent s = [1; 2] /\ accepting s = 0.
Proof.
  eexists. split; [split; [|split]|].
  - repeat constructor; cbn; lia.
  - lia.
  - vm_compute. reflexivity.
  - repeat split.
Qed.

(* C20: two streams never have the same id, and two connections never have the
   same stream. *)
Theorem origin_ids_distinct : forall restored acc es s,
  reached restored acc es s ->
  NoDup (map fst (streams s)) /\
  (forall k k' p p' id, nth_error (conns s) k = Some p -> nth_error (conns s) k' = Some p' ->
     phase_id p = Some id -> phase_id p' = Some id -> k = k').
Proof.
  intros r a es s H. pose proof (reached_inv _ _ _ _ H) as I. split; [apply (oi_nodup _ I)|].
  intros k k' p p' id N N' P P'. pose proof (oi_own _ I _ _ _ N P). pose proof (oi_own _ I _ _ _ N' P'). congruence.
Qed.
Print Assumptions origin_ids_distinct.

(* C20: an open connection's stream is in the table under its id and belongs to
   that connection: data for that id is not delivered elsewhere. *)
Theorem origin_id_routes_to_connection : forall restored acc es s k p id,
  reached restored acc es s -> nth_error (conns s) k = Some p -> phase_id p = Some id ->
  sget (streams s) id = Some (OConn k).
Proof. intros r a es s k p id H. exact (oi_own _ (reached_inv _ _ _ _ H) k p id). Qed.
Print Assumptions origin_id_routes_to_connection.

(* C20: the id given to a connection is the lowest one that is not in use. *)
Theorem origin_lowest_free_id : forall restored acc es s k s' id,
  reached restored acc es s -> nth_error (conns s) k = Some PWait ->
  ostep s (EWake k) = Some s' -> nth_error (conns s') k = Some (PReply id) ->
  0 <= id /\ ~ In id (map fst (streams s)) /\ (forall j, 0 <= j < id -> In j (map fst (streams s))) /\
  accepting s > 0.
Proof.
  intros r a es s k s' id H N E N'. cbn [ostep] in E. destruct (token s); [|discriminate]. rewrite N in E.
  destruct (_ && _ && _) eqn:Q in E.
  - injection E as <-. cbn [conns] in N'. rewrite (set_nth_same _ _ _ _ N) in N'. injection N' as <-.
    destruct (free_id_spec (streams s)) as (A & B & C). unfold keys in *. repeat split; auto. lia.
  - destruct (shutting s); injection E as <-; cbn [conns] in N'; [rewrite (set_nth_same _ _ _ _ N) in N'|]; congruence.
Qed.
Print Assumptions origin_lowest_free_id.

Example lowest_free_example :
  exists s s', reached [0; 2; 3] 1 [EConnect] s /\ ostep s (EWake 0) = Some s' /\ conns s' = [PReply 1].
Proof. do 2 eexists. split; [split; [repeat constructor; cbn; lia|split; [lia|vm_compute; reflexivity]]|]. split; [vm_compute|]; reflexivity. Qed.

(* C20: one reply per accept call.  The accept calls (those restored and those
   made since) are those still to be answered, plus the replies sent, except
   that a reply just sent is not subtracted yet; there is at most one such, and
   at no time are two replies being sent. *)
Theorem origin_accept_accounting : forall restored acc es s,
  reached restored acc es s ->
  acc + naccept es = accepting s + len (sent s) - countf psent (conns s) /\
  0 <= countf psent (conns s) <= countf busy (conns s) /\ countf busy (conns s) <= 1 /\
  0 <= accepting s - countf psent (conns s).
Proof.
  intros r a es s H. pose proof (reached_inv _ _ _ _ H) as I. destruct H as (_ & _ & R).
  pose proof (account_run _ _ _ R) as A. cbn in A. pose proof (oi_busy _ I) as B. destruct (oi_acc _ I) as [C D].
  assert (L : forall l, 0 <= countf psent l <= countf busy l).
  { induction l as [|p t IH]; cbn [countf]; [lia|]. destruct p; cbn [psent busy b2z]; lia. }
  specialize (L (conns s)). unfold b2z in B. destruct (replying s); [specialize (D eq_refl)|]; lia.
Qed.
Print Assumptions origin_accept_accounting.

(* C20: after shutdown has finished waiting, the number saved is exactly that of
   the accept calls which the program has not received a reply to. *)
Theorem origin_unanswered_exact : forall restored acc es s,
  reached restored acc es s -> waited s = true -> accepting s = acc + naccept es - len (sent s).
Proof.
  intros r a es s H W. pose proof (origin_accept_accounting _ _ _ _ H) as (A & B & C & D).
  pose proof (reached_inv _ _ _ _ H) as I. destruct (oi_wait _ I W) as [_ R]. pose proof (oi_busy _ I) as X. rewrite R in X. cbn in X. lia.
Qed.
Print Assumptions origin_unanswered_exact.
Example unanswered_example : exists s, reached [] 0 [EAccept; EAccept; EConnect; EWake 0; ESend 0; EShut; EGuard 0; EWaited] s /\
  waited s = true /\ accepting s = 1 /\ sent s = [0].
Proof. eexists. split; [split; [constructor|split; [lia|vm_compute; reflexivity]]|]. repeat split. Qed.

(* C20: a wake-up is never lost: whenever an accept call could be answered, a
   waiting connection can proceed. *)
Definition wakeful (s : org) : Prop :=
  accepting s > 0 -> replying s = false -> shutting s = false -> token s = true.
Lemma wakeful_step s e s' : OInv s -> wakeful s -> ostep s e = Some s' -> wakeful s'.
Proof.
  unfold wakeful. intros I W E.
  assert (B : forall k id, nth_error (conns s) k = Some (PReply id) -> replying s = true).
  { intros k id N. pose proof (oi_busy _ I) as B. pose proof (countf_pos busy _ _ _ N eq_refl). destruct (replying s); [reflexivity|]. cbn in B. lia. }
  destruct e as [| |k|k|k|k|k live|id lv| |]; cbn [ostep] in E;
    repeat match type of E with
    | context [match nth_error ?c ?k with _ => _ end] => let N := fresh "N" in destruct (nth_error c k) as [[]|] eqn:N
    | context [match sget ?c ?k with _ => _ end] => destruct (sget c k) as [[]|]
    | context [if ?b then _ else _] => let Q := fresh "Q" in destruct b eqn:Q
    end; try discriminate; injection E as <-; cbn [accepting replying shutting token] in *; intros; try discriminate; auto; try lia.
  all: exfalso; try (specialize (B _ _ N); congruence).
Qed.
Theorem origin_no_lost_wakeup : forall restored acc es s k,
  reached restored acc es s -> nth_error (conns s) k = Some PWait ->
  accepting s > 0 -> replying s = false -> shutting s = false ->
  exists s' id, ostep s (EWake k) = Some s' /\ nth_error (conns s') k = Some (PReply id).
Proof.
  intros r a es s k (ND & HA & R) N A B C.
  assert (W : wakeful s).
  { assert (W0 : wakeful (ostart r a)) by (unfold wakeful; cbn; lia). pose proof (OInv_start r a ND HA) as I0. revert W0 I0 R. generalize (ostart r a) as s0. clear.
    induction es as [|e t IH]; intros s0 W I R; cbn [orun] in R; [now injection R as <-|].
    destruct (ostep s0 e) as [s1|] eqn:E; [|discriminate]. exact (IH _ (wakeful_step _ _ _ I W E) (OInv_step _ _ _ I E) R). }
  specialize (W A B C). cbn [ostep]. rewrite W, N, B, C. replace (accepting s >? 0) with true by lia. cbn [andb negb].
  do 2 eexists. split; [reflexivity|]. cbn [conns]. exact (set_nth_same _ _ _ _ N).
Qed.
Print Assumptions origin_no_lost_wakeup.

(* C20: a stream stays in the table, with its owner, until its own connection
   ends or (for a restored one) it has been drained. *)
Theorem origin_stream_kept : forall restored acc es s e s' id o,
  reached restored acc es s -> ostep s e = Some s' -> sget (streams s) id = Some o ->
  sget (streams s') id = Some o \/
  (exists live, e = EDrained id live /\ o = ORestored) \/
  (exists k, o = OConn k /\ ((e = EGuard k /\ nth_error (conns s) k = Some (PCancel id)) \/
                             (e = EDone k false /\ nth_error (conns s) k = Some (PStream id)))).
Proof.
  intros r a es s e s' id o H E G. pose proof (reached_inv _ _ _ _ H) as I.
  destruct e as [| |k|k|k|k|k live|j lv| |]; cbn [ostep] in E.
  - destruct (_ >? 0) in E; [|discriminate]. injection E as <-. auto.
  - injection E as <-. auto.
  - destruct (token s); [|discriminate]. destruct (nth_error (conns s) k) as [[]|]; try discriminate.
    + destruct (_ && _ && _) in E; [|destruct (shutting s)]; injection E as <-; auto. left. cbn [streams sget].
      destruct (free_id_spec (streams s)) as (_ & B & _). destruct (Z.eqb_spec (free_id (streams s)) id) as [<-|]; [|assumption].
      apply sget_None in B. congruence.
    + destruct (shutting s); injection E as <-; auto.
  - destruct (nth_error (conns s) k) as [[]|]; try discriminate; injection E as <-; auto.
  - destruct (nth_error (conns s) k) as [[]|]; try discriminate; injection E as <-; auto.
  - destruct (nth_error (conns s) k) as [p|] eqn:N; [|discriminate]. destruct p as [| |j|j| |]; try discriminate; injection E as <-; auto.
    cbn [streams]. destruct (Z.eq_dec id j) as [->|D]; [|rewrite sget_sdel_other by assumption; auto].
    right. right. pose proof (oi_own _ I k _ j N eq_refl) as O. exists k. split; [congruence|auto].
  - destruct (nth_error (conns s) k) as [p|] eqn:N; [|discriminate]. destruct p as [| | | |j|]; try discriminate; injection E as <-.
    cbn [streams]. destruct live; cbn [negb andb]; [auto|]. destruct (shutting s); cbn [negb]; [auto|].
    destruct (Z.eq_dec id j) as [->|D]; [|rewrite sget_sdel_other by assumption; auto].
    right. right. pose proof (oi_own _ I k _ j N eq_refl) as O. exists k. split; [congruence|auto].
  - destruct (sget (streams s) j) as [[|]|] eqn:J; try discriminate. injection E as <-. cbn [streams]. destruct (shutting s); [auto|].
    destruct (Z.eq_dec id j) as [->|D]; [|rewrite sget_sdel_other by assumption; auto]. right. left. exists lv. split; congruence.
  - injection E as <-. auto.
  - destruct (_ && _ && _) in E; [|discriminate]. injection E as <-. auto.
Qed.
Print Assumptions origin_stream_kept.

(* C21, the state's encoding: the pending accept calls and all stream states
   come back as they were. *)
Theorem origin_state_roundtrip : forall acc m maxSend bufsize,
  0 <= acc < 2 ^ 31 -> len m < 2 ^ 31 -> NoDup (map fst m) -> Forall (entry_ok maxSend bufsize) m ->
  exists b, suspendState acc m = Ok b /\ restoreState b maxSend bufsize = Ok (acc, m).
Proof. exact suspend_roundtrip. Qed.
Print Assumptions origin_state_roundtrip.

Example roundtrip_example :
  let m := [(4, (mkState 7 300 [], mkState 7 5 [1; 2; 3])); (0, (mkState 6 0 [9], mkState 0 0 []))] in
  Forall (entry_ok 65536 65536) m /\
  suspendState 2 m = Ok [2; 2; 4; 7; 172; 2; 0; 7; 5; 3; 1; 2; 3; 0; 6; 0; 1; 9; 0; 0; 0].
Proof.
  cbn zeta. split; [|vm_compute; reflexivity].
  repeat constructor; cbn; try lia; unfold is_byte; try lia; intros; discriminate.
Qed.

(* C21: any byte string as a snapshot is either refused or yields distinct
   stream ids and states within the limits; it never crashes the server. *)
Theorem origin_untrusted_state : forall input maxSend bufsize, is_bytes input ->
  restoreState input maxSend bufsize = Err \/
  exists acc m, restoreState input maxSend bufsize = Ok (acc, m) /\ 0 <= acc < 2 ^ 31 /\
    NoDup (map fst m) /\ Forall (entry_ok maxSend bufsize) m.
Proof.
  intros input ms bs HB. unfold restoreState. destruct input as [|c t].
  { right. exists 0, []. split; [reflexivity|]. split; [lia|]. split; constructor. }
  destruct (Scan_total (c :: t) HB) as [->|(v & j & -> & Hv & Hj)]; [now left|]. cbn [bind].
  assert (Hv' : 0 <= v < 2 ^ 31) by (change (2 ^ 31) with (2147483647 + 1); lia).
  assert (HB2 : is_bytes (skipn j (c :: t))) by now apply Forall_skipn.
  destruct (skipn j (c :: t)) as [|c2 t2].
  { right. exists v, []. split; [reflexivity|]. split; [exact Hv'|]. split; constructor. }
  destruct (Scan_total (c2 :: t2) HB2) as [->|(v2 & j2 & -> & Hv2 & Hj2)]; [now left|]. cbn [bind].
  assert (HB3 : is_bytes (skipn j2 (c2 :: t2))) by now apply Forall_skipn.
  destruct (restore_loop _ v2 _ ms bs []) as [m| |] eqn:E; cbn [bind]; [right|now left|exfalso].
  - destruct (restore_loop_sound _ _ _ _ _ _ _ HB3 E) as [A B]; [constructor|constructor|]. exists v, m. auto.
  - exact (restore_loop_total _ _ _ _ _ _ HB3 E).
Qed.
Print Assumptions origin_untrusted_state.

Example untrusted_example : restoreState [1; 2; 4; 7; 0; 0; 7; 0; 0; 4; 7; 0; 0; 7; 0; 0] 100 100 = Err /\
  restoreState [1; 2; 4; 7; 0; 0; 7; 0; 0; 5; 7; 0; 0; 7; 0; 0] 100 100
  = Ok (1, [(4, (InitialState, InitialState)); (5, (InitialState, InitialState))]).
Proof. split; vm_compute; reflexivity. Qed.

(* C21 does not hold of all states: the server panics when suspending a program
   which has subscribed to 2^31 bytes or more of a stream (packetio.Subscribe
   accepts up to 2^32-1, see read_stream_suspend_total_refuted in ReadStreamProps.v). *)
Theorem origin_suspend_panic_refuted : exists acc m,
  0 <= acc < 2 ^ 31 /\ NoDup (map fst m) /\
  Forall (fun x => Flags (fst (snd x)) = 7 /\ 0 <= Subscribed (fst (snd x)) < 2 ^ 32 /\ Data (fst (snd x)) = [] /\ snd (snd x) = InitialState) m /\
  suspendState acc m = Panic.
Proof.
  exists 0, [(0, (mkState 7 (2 ^ 31) [], InitialState))]. split; [lia|]. split; [repeat constructor; cbn; tauto|].
  split; [constructor; [cbn [fst snd Flags Subscribed Data]; repeat split; lia|constructor]|]. vm_compute. reflexivity.
Qed.
Print Assumptions origin_suspend_panic_refuted.

(* C21 does not hold: a restored stream that is still live is dropped when the
   program is suspended again: drainRestored returns from the transfer because
   its context was cancelled (live), and deletes the stream before Suspend is
   called. *)
Theorem origin_live_stream_lost_refuted : exists restored es s id,
  reached restored 0 es s /\ In id restored /\ waited s = true /\
  es = [EDrained id true; EShut; EWaited] /\ ~ In id (map fst (streams s)).
Proof.
  exists [0], [EDrained 0 true; EShut; EWaited]. eexists. exists 0. split; [split; [repeat constructor; cbn; tauto|split; [lia|vm_compute; reflexivity]]|].
  split; [now left|]. repeat split. cbn. tauto.
Qed.
Print Assumptions origin_live_stream_lost_refuted.

(* C21, what holds: after shutting has been set, no stream disappears, except
   that of a connection whose reply the program did not receive. *)
Theorem origin_streams_kept_in_shutdown_partial : forall restored acc es s e s' id o,
  reached restored acc es s -> shutting s = true -> ostep s e = Some s' -> sget (streams s) id = Some o ->
  sget (streams s') id = Some o \/ exists k, e = EGuard k /\ nth_error (conns s) k = Some (PCancel id).
Proof.
  intros r a es s e s' id o H SH E G. destruct (origin_stream_kept _ _ _ _ _ _ _ _ H E G) as [K|[(lv & -> & ->)|(k & -> & [[-> N]|[-> N]])]].
  - auto.
  - left. cbn [ostep] in E. rewrite G, SH in E. injection E as <-. exact G.
  - right. eauto.
  - left. cbn [ostep] in E. rewrite N, SH in E. injection E as <-. exact G.
Qed.
Print Assumptions origin_streams_kept_in_shutdown_partial.

(* C50, origin service: shutdown never finishes waiting if a connection's reply
   is in flight, since the program does not receive any more and the connection
   is not woken up until the waiting is over. *)
Definition from_outside (e : oevent) : bool :=
  match e with ESend _ | EAccept | EGiveUp _ | EConnect => true | _ => false end.

Lemma stuck es : forall s s', (exists id, conns s = [PReply id]) -> replying s = true -> waited s = false -> token s = false ->
  forallb (fun e => negb (from_outside e)) es = true -> orun s es = Some s' -> waited s' = false.
Proof.
  induction es as [|e t IH]; intros s s' [id C] Rp W T F R; cbn [orun] in R; [now injection R as <-|].
  cbn [forallb] in F. apply andb_prop in F. destruct F as [F1 F2].
  destruct (ostep s e) as [s1|] eqn:E; [|discriminate].
  destruct e as [| |k|k|k|k|k live|j lv| |]; try discriminate F1; cbn [ostep] in E.
  - rewrite T in E. discriminate.
  - rewrite C in E. destruct k as [|[|k]]; cbn in E; discriminate.
  - rewrite C in E. destruct k as [|[|k]]; cbn in E; discriminate.
  - destruct (sget (streams s) j) as [[]|]; try discriminate. injection E as <-. revert R; apply IH; cbn; eauto.
  - injection E as <-. revert R; apply IH; cbn; eauto.
  - rewrite Rp in E. destruct (shutting s); cbn in E; discriminate.
Qed.

Theorem origin_suspend_deadlock_refuted : exists es0 s,
  reached [] 0 es0 s /\ In EShut es0 /\
  (forall es s', forallb (fun e => negb (from_outside e)) es = true -> orun s es = Some s' -> waited s' = false).
Proof.
  exists [EAccept; EConnect; EWake 0; EShut]. eexists. split; [split; [constructor|split; [lia|vm_compute; reflexivity]]|].
  split; [cbn; tauto|]. intros es s'. apply stuck; cbn; eauto.
Qed.
Print Assumptions origin_suspend_deadlock_refuted.

(* ... and finishes otherwise. *)
Theorem origin_suspend_finishes_partial : forall restored acc es s,
  reached restored acc es s -> shutting s = true -> waited s = false ->
  (forall k id, nth_error (conns s) k <> Some (PReply id)) ->
  exists es' s', forallb (fun e => negb (from_outside e)) es' = true /\ orun s es' = Some s' /\ waited s' = true.
Proof.
  intros r a es s H SH W NR. pose proof (reached_inv _ _ _ _ H) as I. destruct (replying s) eqn:Rp.
  - pose proof (oi_busy _ I) as B. rewrite Rp in B. cbn in B.
    assert (X : exists k p, nth_error (conns s) k = Some p /\ busy p = true).
    { clear - B. revert B. induction (conns s) as [|p t IH]; intros B; cbn [countf] in B; [lia|].
      destruct (busy p) eqn:Q; [exists O, p; auto|]. destruct IH as (k & p' & K); [cbn in B; lia|]. exists (S k), p'. exact K. }
    destruct X as (k & p & N & Q). exists [EGuard k; EWaited]. destruct p as [|id|id|id| |]; try discriminate Q; [exfalso; exact (NR _ _ N)| |];
      eexists; (split; [reflexivity|]); cbn [orun ostep]; rewrite N; cbn [orun ostep shutting replying waited]; rewrite SH, W; cbn; auto.
  - exists [EWaited]. eexists. split; [reflexivity|]. cbn [orun ostep]. rewrite SH, Rp, W. cbn. auto.
Qed.
Print Assumptions origin_suspend_finishes_partial.
Example finishes_example : exists s, reached [] 0 [EAccept; EConnect; EWake 0; ESend 0; EShut] s /\ shutting s = true /\ replying s = true /\
  nth_error (conns s) 0 = Some (PSent 0).
Proof. eexists. split; [split; [constructor|split; [lia|vm_compute; reflexivity]]|]. repeat split. Qed.

(* C51: the number of simultaneous connections is not limited: whatever
   Config.MaxConns is, more connections can be open. *)
Lemma more_conns n : exists es s, orun (ostart [] 0) es = Some s /\ accepting s = 0 /\ replying s = false /\ shutting s = false /\
  length (conns s) = n /\ forall p, In p (conns s) -> exists id, p = PStream id.
Proof.
  induction n as [|n IH].
  - exists [], (ostart [] 0). repeat split. cbn. tauto.
  - destruct IH as (es & s & R & A & Rp & SH & L & P).
    exists (es ++ [EAccept; EConnect; EWake n; ESend n; EGuard n]).
    assert (App : forall e1 e2 s0, orun s0 (e1 ++ e2) = match orun s0 e1 with Some s1 => orun s1 e2 | None => None end).
    { clear. induction e1 as [|e t IH]; intros e2 s0; cbn [orun app]; [reflexivity|]. destruct (ostep s0 e); [apply IH|reflexivity]. }
    assert (N : forall p, nth_error (conns s ++ [p]) n = Some p) by (intros p; rewrite nth_error_app2 by lia; replace (n - length (conns s))%nat with O by lia; reflexivity).
    assert (SN : forall p q, set_nth (conns s ++ [p]) n q = conns s ++ [q]).
    { clear - L. subst n. induction (conns s) as [|h t IH]; intros; cbn; [reflexivity|]. now rewrite IH. }
    rewrite App, R. cbn [orun ostep accepting]. rewrite A. change (s32 (0 + 1) >? 0) with true. cbn [orun ostep conns token accepting replying shutting]. rewrite N, Rp, SH.
    change (0 + 1 >? 0) with true. cbn [andb negb orun ostep conns]. rewrite SN, N. cbn [orun ostep conns]. rewrite SN, N. cbn [orun ostep conns].
    eexists. split; [reflexivity|]. cbn [accepting replying shutting conns]. rewrite SN. repeat split; [rewrite app_length; cbn; lia|].
    intros p I. apply in_app_iff in I. destruct I as [I|[<-|[]]]; eauto.
Qed.
Theorem origin_maxconns_refuted : forall maxConns : nat, exists es s,
  orun (ostart [] 0) es = Some s /\ (maxConns < length (conns s))%nat /\ forall p, In p (conns s) -> exists id, p = PStream id.
Proof. intros n. destruct (more_conns (S n)) as (es & s & R & _ & _ & _ & L & P). exists es, s. repeat split; auto. lia. Qed.
Print Assumptions origin_maxconns_refuted.
