(* WriteStreamProps.v: properties C09-C13 (write streams).

   [wrun (winit sz hasw) es = Some s]: a new write stream with a buffer of sz
   bytes was given a writer (hasw) or not, and the events es happened in that
   order, each enabled; s is the state reached.  [acc s]: bytes of the writes
   that were accepted from the program; [out s]: bytes taken by the writer;
   [flows s]: increments of the flow packets received by the program;
   [granted s]: their sum.  A buffer size is a power of two, at most 2^31. *)
From Verif Require Import BaseLemmas StreamState StreamStateProofs WriteStream WriteStreamProofs WriteStreamProofs2 WriteStreamProofs3 WriteStreamProofs4 WriteStreamProofs5.

Lemma wreach sz hasw es s : pow2 sz -> wrun (winit sz hasw) es = Some s -> InvW s /\ InvL s.
Proof.
  intros HS E. split; [eapply InvW_run|eapply InvL_run]; try eassumption; try now apply InvW_init. now apply InvL_init.
Qed.

Lemma wrun_size es : forall s s', wrun s es = Some s' -> size s' = size s.
Proof.
  induction es as [|e t IH]; cbn [wrun]; intros s s' E; [now injection E as <-|].
  destruct (step s e) as [s1|] eqn:S; [|discriminate]. rewrite (IH s1 s' E). clear - S.
  unfold step in S. destruct e; repeat match type of S with context [match ?x with _ => _ end] => destruct x; try discriminate end;
    injection S as <-; reflexivity.
Qed.

(* What the ring holds: n bytes from offset off on, wrapping at the end. *)
Definition ring_content (b : bytes) (sz off : Z) (n : Z) : bytes :=
  map (fun i => nth (Z.to_nat ((off + Z.of_nat i) mod sz)) b 0) (seq 0 (Z.to_nat n)).

(* C09: exactly those writes are accepted for which the buffer has room (with a
   gap of one byte), whatever the positions in the ring. *)
Theorem write_stream_accepts_iff_room : forall sz hasw es s d,
  pow2 sz -> wrun (winit sz hasw) es = Some s -> chan s = CIdle -> closed s = false -> rcv s = true ->
  (len (acc s) - len (out s) + len d < sz <-> exists s', step s (EWrite d) = Some s' /\ chan s' = CCopy d).
Proof.
  intros sz hasw es s d HS E CH CL RC. destruct (wreach _ _ _ _ HS E) as [I _]. apply wrun_size in E. cbn in E.
  pose proof (used_value s I) as U. unfold P, C in U. rewrite CH in U. unfold step. rewrite CH, CL, RC. cbn [negb].
  unfold write_fits. rewrite U, E. split.
  - intros H. replace (len (acc s) - 0 - len (out s) + len d >=? sz) with false by lia. cbn [negb]. eexists. split; reflexivity.
  - intros (s' & H1 & H2). destruct (_ >=? _) eqn:Q in H1; [|lia]. injection H1 as <-. congruence.
Qed.
Print Assumptions write_stream_accepts_iff_room.

(* C09: a program that stays within what it was granted never has a write
   rejected. *)
Theorem write_stream_honest_accepted : forall sz hasw es s d,
  pow2 sz -> wrun (winit sz hasw) es = Some s -> chan s = CIdle -> closed s = false -> rcv s = true ->
  len (acc s) + len d <= granted s -> exists s', step s (EWrite d) = Some s' /\ chan s' = CCopy d.
Proof.
  intros sz hasw es s d HS E CH CL RC H. apply (write_stream_accepts_iff_room sz hasw es s d HS E CH CL RC).
  destruct (wreach _ _ _ _ HS E) as [I _]. apply wrun_size in E. cbn in E.
  destruct (w_flow s I) as [_ F]. unfold C in F. lia.
Qed.
Print Assumptions write_stream_honest_accepted.

(* C09: a rejected write has no effect at all. *)
Theorem write_stream_rejected_no_effect : forall s d s',
  step s (EWrite d) = Some s' -> chan s' <> CCopy d -> s' = s.
Proof.
  intros s d s' E N. unfold step in E. destruct (chan s); try discriminate. destruct (closed s); [discriminate|].
  destruct (negb (rcv s)); [now injection E as <-|]. destruct (negb (write_fits s d)); injection E as <-; [reflexivity|]. now contradict N.
Qed.

Definition write_demo : list wev :=
  [ETick; ETick; EAccept; ETick; ETick; EWrite [1; 2; 3]; ECopy; EAdd; EPoke; ETick; ETick; EWake; ETick; EWritten 3 WNoErr;
   ETick; ETick; EAccept; ETick; ETick; ETick; ETick; EWrite [4; 5; 6; 7; 8]; ECopy; EAdd; EPoke; EWake; ETick].
(* size 8: after writing 3 bytes, 5 more end at the ring's end and wrap to 0 *)
Example write_stream_demo : exists s, pow2 8 /\ wrun (winit 8 true) write_demo = Some s /\
  acc s = [1; 2; 3; 4; 5; 6; 7; 8] /\ out s = [1; 2; 3] /\ flows s = [7; 3] /\ produced s = 8 /\ consumed s = 3 /\
  pc s = WWriting 3 8 /\ honest s = true.
Proof. eexists. split; [exists 3; split; [lia|reflexivity]|]. split; [vm_compute; reflexivity|]. repeat split. Qed.

(* C09, refuted part: a program that exceeds its grant is not stopped as long
   as the buffer has room (here it was never granted anything). *)
Theorem write_stream_cheater_rejected_refuted : exists sz es s,
  pow2 sz /\ wrun (winit sz true) es = Some s /\ granted s = 0 /\ acc s = [1; 2; 3].
Proof.
  exists 8, [EWrite [1; 2; 3]; ECopy; EAdd; EPoke]. eexists. split; [exists 3; split; [lia|reflexivity]|].
  split; [vm_compute; reflexivity|]. now split.
Qed.
Print Assumptions write_stream_cheater_rejected_refuted.

(* C09, consequence: if such a stream is then suspended, the subscription
   counter has wrapped below zero and marshaling the state panics. *)
Theorem write_stream_cheater_suspend_refuted : exists sz es s,
  pow2 sz /\ wrun (winit sz true) es = Some s /\ pc s = WDone /\ fpad s = 0 /\ MarshaledSize (wstate_of s) = Panic.
Proof.
  exists 8, [EWrite [1; 2; 3]; ECopy; EAdd; EPoke; ETick; ETick; EWake; ETick; EWritten 3 WNoErr; EStopTransfer; ETick; ETick; EWake; ETick].
  eexists. split; [exists 3; split; [lia|reflexivity]|]. split; [vm_compute; reflexivity|]. repeat split.
Qed.
Print Assumptions write_stream_cheater_suspend_refuted.

(* C10: in every history, what the writer has taken followed by what is in the
   ring is exactly what was accepted from the program.  (While a write is
   between copying and advancing the position the ring holds more than the
   position says.) *)
Theorem write_stream_in_order : forall sz hasw es s,
  pow2 sz -> wrun (winit sz hasw) es = Some s -> (forall n, chan s <> CAdd n) ->
  out s ++ ring_content (buf s) sz (consumed s) (u32 (produced s - consumed s)) = acc s /\
  u32 (produced s - consumed s) < sz.
Proof.
  intros sz hasw es s HS E NC. destruct (wreach _ _ _ _ HS E) as [I _]. apply wrun_size in E. cbn in E.
  assert (PA : P s = len (acc s)) by (unfold P; destruct (chan s); try lia; now destruct (NC n)).
  pose proof (pow2_bounds sz HS) as [HB HD].
  pose proof (used_value s I) as U. destruct I as [I1 I2 I3 I4 I5 I6 I7 I8 I9]. destruct I2 as (I2a & I2b & I2c & I2d).
  rewrite E in *. assert (0 <= claim s) by (unfold claim; destruct (chan s); try lia; apply len_nonneg).
  rewrite U. split; [|lia]. rewrite PA in *.
  assert (LR : len (ring_content (buf s) sz (consumed s) (len (acc s) - C s)) = len (acc s) - C s).
  { unfold ring_content. unfold len at 1. rewrite map_length, seq_length. rewrite Z2Nat.id; lia. }
  apply at_ext; [rewrite len_app, LR; unfold C; lia|]. rewrite len_app, LR. intros i Hi.
  destruct (Z.ltb_spec i (len (out s))).
  - rewrite at_app1 by lia. apply I5. unfold C. lia.
  - rewrite at_app2 by lia. unfold C in *. rewrite <- I4 by lia. unfold at_ at 1, ring_content.
    set (f := fun i => _). rewrite (nth_indep _ 0 (f O)) by (rewrite map_length, seq_length; lia).
    rewrite map_nth, seq_nth by lia. unfold f, at_. f_equal. f_equal. rewrite I2b.
    cbn [Nat.add]. rewrite Z2Nat.id by lia.
    rewrite Zplus_mod. rewrite u32_mod_size by assumption. rewrite <- Zplus_mod. f_equal. lia.
Qed.
Print Assumptions write_stream_in_order.

(* C10: in particular the writer's bytes are a prefix of the accepted ones. *)
Theorem write_stream_prefix : forall sz hasw es s,
  pow2 sz -> wrun (winit sz hasw) es = Some s -> exists rest, acc s = out s ++ rest /\ len rest < sz.
Proof.
  intros sz hasw es s HS E. destruct (wreach _ _ _ _ HS E) as [I _]. apply wrun_size in E. cbn in E.
  destruct I as [I1 I2 I3 I4 I5 I6 I7 I8 I9]. destruct I2 as (I2a & I2b & I2c & I2d). rewrite E in *.
  assert (0 <= claim s) by (unfold claim; destruct (chan s); try lia; apply len_nonneg).
  exists (skipn (length (out s)) (acc s)).
  assert (LS : len (skipn (length (out s)) (acc s)) = len (acc s) - C s) by (unfold C, len in *; rewrite skipn_length; lia).
  split; [|lia]. apply at_ext; [rewrite len_app, LS; unfold C; lia|]. intros i Hi.
  destruct (Z.ltb_spec i (len (out s))).
  - rewrite at_app1 by lia. symmetry. apply I5. unfold C. lia.
  - rewrite at_app2 by lia. replace (length (out s)) with (Z.to_nat (len (out s))) by (unfold len; lia).
    rewrite at_skipn by (pose proof (len_nonneg (out s)); lia). f_equal. lia.
Qed.
Print Assumptions write_stream_prefix.

(* C11: flow announced and not yet used (granted - accepted) plus the bytes in
   the buffer (accepted - written) is at most the buffer size minus one. *)
Theorem write_stream_flow_bound : forall sz hasw es s,
  pow2 sz -> wrun (winit sz hasw) es = Some s ->
  (granted s - len (acc s)) + (len (acc s) - len (out s)) <= sz - 1.
Proof.
  intros sz hasw es s HS E. destruct (wreach _ _ _ _ HS E) as [I _]. apply wrun_size in E. cbn in E.
  destruct (w_flow s I) as [_ F]. unfold C in F. lia.
Qed.
Print Assumptions write_stream_flow_bound.

(* C11: every flow packet grants something, except one with increment 0 that
   ends the subscription, after which there are no more. *)
Theorem write_stream_flow_packets : forall sz hasw es s,
  pow2 sz -> wrun (winit sz hasw) es = Some s ->
  Forall (fun x => 0 < x) (flows s) \/ exists f, flows s = f ++ [0] /\ Forall (fun x => 0 < x) f.
Proof.
  intros sz hasw es s HS E. destruct (wreach _ _ _ _ HS E) as [I _]. destruct (w_flows s I) as [F1 F2].
  destruct (send s); [left; now apply F1|right; now apply F2].
Qed.
Print Assumptions write_stream_flow_packets.

(* C10/C11, progress: if the transfer is blocked and nothing is on its way to
   wake it up, then, unless the writer is gone, everything accepted has been
   written, and if it is not offering a flow packet then the program (if it
   never exceeded its grants) has already been granted the whole buffer. *)
Theorem write_stream_no_lost_wakeup : forall sz hasw es s,
  pow2 sz -> wrun (winit sz hasw) es = Some s ->
  pc s = WSelB -> token s = false -> chan s = CIdle -> w s = true ->
  out s = acc s /\
  (honest s = true -> sending s = false -> granted s = len (acc s) + sz - 1 /\ rcv s = true).
Proof.
  intros sz hasw es s HS E PC TK CH WW. destruct (wreach _ _ _ _ HS E) as [I L].
  destruct (write_stream_prefix sz hasw es s HS E) as (rest & ER & _).
  apply wrun_size in E. cbn in E. pose proof (pow2_bounds sz HS) as [HB HD].
  destruct L as [L1 L2 L3]. destruct (L2 PC WW) as [K|[K|K]]; try congruence.
  unfold P, C in K. rewrite CH in K.
  assert (EO : out s = acc s).
  { rewrite ER in *. rewrite len_app in K. assert (len rest = 0) by lia. destruct rest; [now rewrite app_nil_r|cbn in H; lia]. }
  split; [assumption|]. intros HO SG. pose proof (w_pc s I) as WP. rewrite PC in WP. destruct WP as (_ & _ & WP).
  destruct (send s) eqn:SE; [|destruct (w_flows s I) as [_ F2]; rewrite SE in F2; destruct (F2 eq_refl); congruence].
  destruct (WP SG eq_refl) as [_ W2]. specialize (L1 HO). unfold claim, C in *. rewrite CH in L1. rewrite E in W2.
  assert (G : granted s - len (out s) <= sz - 1) by (destruct (w_flow s I) as [_ F]; unfold C in F; lia).
  unfold s32 in W2. rewrite Z.mod_small in W2 by lia.
  assert (GG : granted s = len (acc s) + sz - 1) by lia.
  split; [assumption|]. destruct (rcv s) eqn:RC; [reflexivity|].
  destruct (L3 eq_refl WW CH TK) as [Q|[Q|[Q|[Q|[Q|[Q|Q]]]]]]; try congruence; unfold P, C in Q; rewrite ?CH in Q; lia.
Qed.
Print Assumptions write_stream_no_lost_wakeup.

(* The close is not acted upon before the program takes the flow packet that is
   on offer: here the program closed the stream, all data was written and the
   transfer waits, with the connection's write side still open. *)
Theorem write_stream_close_prompt_refuted : exists sz es s,
  pow2 sz /\ wrun (winit sz true) es = Some s /\ rcv s = false /\ out s = acc s /\ honest s = true /\
  w s = true /\ pc s = WSelB /\ token s = false /\ chan s = CIdle /\
  (forall e s', step s e = Some s' -> e <> EAccept -> closed s = false -> cancelled s = false ->
     w s' = true /\ pc s' = WSelB).
Proof.
  exists 8, [ETick; ETick; EAccept; ETick; ETick; ETick; ETick; EWrite [1; 2; 3]; ECopy; EAdd; EPoke; ECloseWrite; EPoke; EWake; ETick; EWritten 3 WNoErr; ETick; ETick].
  eexists. split; [exists 3; split; [lia|reflexivity]|]. split; [vm_compute; reflexivity|].
  do 7 (split; [reflexivity|]). intros e s' E N _ _.
  destruct e; cbn in E; try discriminate; try (injection E as <-; now split).
Qed.
Print Assumptions write_stream_close_prompt_refuted.

(* C12: when the transfer has returned, the saved data is what was accepted
   and not written, in order; but if the ring is wrapped at that point, it is
   followed by 2^32 - sz zero bytes. *)
Theorem write_stream_suspend_partial : forall sz hasw es s,
  pow2 sz -> wrun (winit sz hasw) es = Some s -> pc s = WDone ->
  acc s = out s ++ fdata s /\
  fpad s = (if len (out s) mod sz <=? len (acc s) mod sz then 0 else 2 ^ 32 - sz).
Proof.
  intros sz hasw es s HS E PC. destruct (wreach _ _ _ _ HS E) as [I _].
  destruct (write_stream_prefix sz hasw es s HS E) as (rest & ER & _).
  apply wrun_size in E. cbn in E. pose proof (w_pc s I) as WP. rewrite PC in WP. destruct WP as (_ & W1 & W2).
  rewrite E in W2. split; [|exact W2]. rewrite W1, ER, skipn_app, skipn_all, Nat.sub_diag. reflexivity.
Qed.
Print Assumptions write_stream_suspend_partial.

(* C12: that does not happen if the writer is still open: what is saved is then
   exactly the unwritten bytes. *)
Theorem write_stream_suspend_open_partial : forall sz hasw es s,
  pow2 sz -> wrun (winit sz hasw) es = Some s -> pc s = WDone -> w s = true ->
  acc s = out s ++ fdata s /\ fpad s = 0.
Proof.
  intros sz hasw es s HS E PC WW. destruct (write_stream_suspend_partial sz hasw es s HS E PC) as [H1 H2].
  split; [assumption|]. rewrite H2. destruct (wreach _ _ _ _ HS E) as [I _].
  pose proof (InvN_run es _ s (InvW_init sz hasw HS) (InvN_init sz hasw HS) E) as [N1 N2 N3].
  apply wrun_size in E. cbn in E. destruct (N2 ltac:(tauto) WW) as [CL TK]. specialize (N1 CL).
  specialize (N3 WW TK ltac:(congruence)). rewrite PC in N3. unfold straight, P, C in N3. rewrite N1, E, Z.sub_0_r in N3.
  destruct (_ <=? _) eqn:Q; [reflexivity|lia].
Qed.
Print Assumptions write_stream_suspend_open_partial.

(* an honest program; the writer takes 400 bytes, then 10 of the next 300 and
   fails with EOF; then the instance is suspended *)
Definition wrapped_events : list wev :=
  [ETick; ETick; EAccept; ETick; ETick; EWrite (repeat 1 400); ECopy; EAdd; EPoke; ETick; ETick; EWake; ETick; EWritten 400 WNoErr;
   ETick; ETick; EAccept; ETick; ETick; ETick; ETick; EWrite (repeat 2 300); ECopy; EAdd; EPoke; EWake; ETick; EWritten 10 WEOF;
   EStopTransfer; ETick; ETick; EWake; ETick].

(* C12 refuted: the stream of an honest program, stopped with a wrapped ring of
   512 bytes: almost 4 GB of zero bytes follow the 290 bytes of data, and the
   size does not fit in the marshaled format, so that suspension panics. *)
Theorem write_stream_suspend_refuted : exists sz es s,
  pow2 sz /\ wrun (winit sz true) es = Some s /\ pc s = WDone /\ honest s = true /\
  fdata s = repeat 2 290 /\ fpad s = 2 ^ 32 - 512 /\
  MarshaledSize (mkState (Flags (wstate_of s)) (wsub s) (fdata s ++ repeat 0 (Z.to_nat (fpad s)))) = Panic.
Proof.
  exists 512, wrapped_events. eexists. split; [exists 9; split; [lia|reflexivity]|]. split; [vm_compute; reflexivity|].
  do 4 (split; [reflexivity|]). cbn [fpad fdata wsub].
  set (d := repeat 0 _). assert (LD : len d = 2 ^ 32 - 512).
  { unfold d, len. rewrite repeat_length. rewrite Z2Nat.id; lia. }
  clearbody d. unfold MarshaledSize. cbn [Flags wstate_of rcv w send Subscribed Data bind].
  rewrite len_app, LD. reflexivity.
Qed.
Print Assumptions write_stream_suspend_refuted.

(* C13 refuted, for every honest history: a stream suspended (with whatever
   data) and restored fails at once with "subscription overflow"; nothing of
   its data is delivered. *)
Theorem write_stream_restore_refuted : forall sz hasw es s hasw',
  pow2 sz -> wrun (winit sz hasw) es = Some s -> pc s = WDone -> honest s = true ->
  pc (wrestore (wstate_of s) hasw') = WError.
Proof.
  intros sz hasw es s hasw' HS E PC HO. destruct (wreach _ _ _ _ HS E) as [I L].
  destruct (write_stream_suspend_partial sz hasw es s HS E PC) as [F _].
  apply wrun_size in E. cbn in E. pose proof (pow2_bounds sz HS) as [HB HD].
  unfold wrestore, wstart. cbn [wstate_of Data Subscribed pc].
  pose proof (l_honest s L HO) as G. destruct (w_flow s I) as [F1 F2]. unfold C in *.
  assert (0 <= claim s) by (unfold claim; destruct (chan s); try lia; apply len_nonneg).
  pose proof (len_nonneg (fdata s)). pose proof (len_nonneg (out s)).
  assert (LA : len (acc s) = len (out s) + len (fdata s)) by (rewrite F at 1; apply len_app).
  rewrite F1. rewrite u32_id by lia. rewrite u32_id by lia. replace (_ >=? _) with true by lia. reflexivity.
Qed.
Print Assumptions write_stream_restore_refuted.

Example write_stream_restore_case : exists s,
  wrun (winit 512 true) wrapped_events = Some s /\ pc s = WDone /\ honest s = true /\ fdata s <> [].
Proof. eexists. split; [vm_compute; reflexivity|]. repeat split. discriminate. Qed.

(* an honest stream stopped with an open writer and unwritten data, as required
   by write_stream_suspend_open_partial *)
Example write_stream_suspend_case : exists s,
  wrun (winit 8 true) [ETick; ETick; EAccept; ETick; ETick; EWrite [1; 2; 3]; ECopy; EAdd; EPoke; ETick; ETick; EWake; ETick;
     EWrite [4; 5]; ECopy; EAdd; EPoke; EWritten 3 WNoErr; EStopTransfer; ETick; ETick; EWake; ETick; EWritten 2 WNoErr; ETick; ETick; EWake; ETick] = Some s
  /\ pc s = WDone /\ w s = true /\ out s = [1; 2; 3; 4; 5].
Proof. eexists. split; [vm_compute; reflexivity|]. repeat split. Qed.

(* C13: a restored stream that has data and room for a write (which happens only
   for states no honest history of this code leaves, e.g. with Subscribed 0)
   overwrites its unwritten data: the position counters are not restored. *)
Theorem write_stream_restore_overwrites_refuted : exists x s,
  Data x = [1; 2; 3; 4] /\ Flags x = 7 /\
  wrun (wrestore x true) [EWrite [9]; ECopy; EAdd; EPoke; ETick; ETick; EWake; ETick] = Some s /\
  buf s = [9; 2; 3; 4] /\ pc s = WWriting 0 1.
Proof. exists (mkState 7 0 [1; 2; 3; 4]). eexists. split; [reflexivity|]. split; [reflexivity|]. split; [vm_compute; reflexivity|]. now split. Qed.
Print Assumptions write_stream_restore_overwrites_refuted.
