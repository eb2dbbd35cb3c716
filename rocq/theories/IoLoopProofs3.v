From Verif Require Import BaseLemmas Packet PacketProofs IoLoop IoLoopSpec IoLoopProofs IoLoopProofs2.

Lemma Code_ok p : (8 <= length p)%nat -> Code p = Ok (s16 (unle (firstn 2 (skipn 4 p)))).
Proof. intros H. unfold Code. rewrite get_le_ok by (cbn; lia). reflexivity. Qed.

Lemma s16_nonneg x : 0 <= x < 2 ^ 16 -> (0 <=? s16 x) = (x <? 2 ^ 15).
Proof.
  intros H. unfold s16. destruct (Z.ltb_spec x (2 ^ 15)).
  - rewrite Z.mod_small by lia. lia.
  - replace (x + 2 ^ 15) with (x - 2 ^ 15 + 1 * 2 ^ 16) by lia. rewrite Z.mod_add by lia. rewrite Z.mod_small by lia. lia.
Qed.

Lemma code_range p : is_bytes p -> (8 <= length p)%nat -> 0 <= unle (firstn 2 (skipn 4 p)) < 2 ^ 16.
Proof.
  intros H HL. pose proof (unle_bound (firstn 2 (skipn 4 p))) as B.
  assert (L : length (firstn 2 (skipn 4 p)) = 2%nat) by (rewrite firstn_length, skipn_length; lia). rewrite L in B.
  apply B. now apply Forall_firstn, Forall_skipn.
Qed.

Lemma handle_message n p m : is_bytes p -> (8 <= length p)%nat -> handlePacket n p = Ok (HMessage m) ->
  m = p /\ to_service p = true /\ checkServicePacket n p = Ok p /\ exists c, Code p = Ok c /\ 0 <= c.
Proof.
  intros HB HL E. unfold handlePacket in E. rewrite (Code_ok p HL) in E. cbn [bind] in E.
  pose proof (s16_nonneg _ (code_range p HB HL)) as HS. unfold to_service.
  destruct (_ >=? 0) eqn:Q in E; [|destruct (_ =? _) in E; discriminate].
  destruct (checkServicePacket n p) as [q| |] eqn:K; try discriminate. cbn [bind] in E. injection E as <-.
  assert (q = p) as ->.
  { unfold checkServicePacket in K. rewrite (Code_ok p HL) in K. cbn [bind] in K. destruct (_ >=? n) in K; [discriminate|].
    destruct (Domain p); try discriminate. cbn [bind] in K. destruct (_ || _ || _) in K; [congruence|].
    destruct (_ =? _) in K; [|discriminate]. destruct (_ <? _) in K; congruence. }
  split; [reflexivity|]. split; [lia|]. split; [reflexivity|]. eexists. split; [apply (Code_ok p HL)|lia].
Qed.

Lemma handle_services n p q : is_bytes p -> (8 <= length p)%nat -> handlePacket n p = Ok (HServices q) -> to_service p = false.
Proof.
  intros HB HL E. unfold handlePacket in E. rewrite (Code_ok p HL) in E. cbn [bind] in E.
  pose proof (s16_nonneg _ (code_range p HB HL)) as HS. unfold to_service.
  destruct (_ >=? 0) eqn:Q in E; [destruct (checkServicePacket n p); discriminate|]. lia.
Qed.

Lemma check_mono n n' p : n <= n' -> checkServicePacket n p = Ok p -> checkServicePacket n' p = Ok p.
Proof.
  unfold checkServicePacket. intros H E. destruct (Code p); try discriminate. cbn [bind] in *.
  destruct (a >=? n) eqn:Q; [discriminate|]. replace (a >=? n') with false by lia. exact E.
Qed.

Lemma svc_mono n n' p : n <= n' -> svc_packet n p -> svc_packet n' p.
Proof. intros H (H1 & H2 & H3). split; [assumption|]. split; [now apply (check_mono n)|assumption]. Qed.

Definition good (p : bytes) : Prop := packet_ok p /\ is_bytes p.

(* Messages are delivered in the order received. *)
Record Fifo (ms0 : list bytes) (in0 : list bytes) (s : io) : Prop := MkF {
  f_order : delivered s ++ msgs s ++ filter to_service (inbox s) = ms0 ++ filter to_service in0;
  f_msgs : Forall (svc_packet (nsvc s)) (msgs s);
  f_del : Forall (svc_packet (nsvc s)) (delivered s);
  f_inbox : Forall good (inbox s) }.

Lemma fifo_fail ms0 in0 s : Fifo ms0 in0 s -> Fifo ms0 in0 (fail s).
Proof. intros [F1 F2 F3 F4]. constructor; assumption. Qed.

Lemma fifo_step ms0 in0 s e s' : Fifo ms0 in0 s -> io_step s e = Some s' -> Fifo ms0 in0 s'.
Proof.
  intros F E. pose proof F as [F1 F2 F3 F4]. unfold io_step in E. destruct (result s); [discriminate|]. destruct e.
  - destruct (evs s); [|discriminate]. destruct (initMessagePacket p); try discriminate. injection E as <-. constructor; assumption.
  - destruct (may_read s); [|discriminate]. destruct (inbox s) as [|p t] eqn:IB.
    + destruct (ending s) as [b []]; injection E as <-; try now apply fifo_fail.
      constructor; cbn; try assumption.
    + inversion F4 as [|? ? [G1 G2] G3]; subst. assert (L8 : (8 <= length p)%nat) by (destruct G1; unfold len in *; lia).
      destruct (handlePacket (nsvc s) p) as [[m|q]| |] eqn:H; try (injection E as <-; now apply fifo_fail).
      * destruct (handle_message _ _ _ G2 L8 H) as (-> & H1 & H2 & H3). injection E as <-. constructor; cbn; try assumption.
        -- cbn [filter] in F1. rewrite H1 in F1. rewrite <- F1. now rewrite <- app_assoc.
        -- apply Forall_app. split; [assumption|]. constructor; [|constructor]. split; [assumption|]. split; assumption.
      * pose proof (handle_services _ _ _ G2 L8 H) as H1.
        destruct reply as [[r n]|]; injection E as <-; [|now apply fifo_fail]. constructor; cbn; try assumption.
        -- cbn [filter] in F1. now rewrite H1 in F1.
        -- eapply Forall_impl; [|exact F2]. intros x. apply svc_mono. lia.
        -- eapply Forall_impl; [|exact F3]. intros x. apply svc_mono. lia.
  - destruct (msgs s) as [|m t] eqn:M; [discriminate|]. injection E as <-. inversion F2; subst. constructor; cbn; try assumption.
    + rewrite <- F1. now rewrite <- app_assoc.
    + apply Forall_app. split; [assumption|]. constructor; [assumption|constructor].
  - destruct (evs s); [discriminate|]. injection E as <-. constructor; assumption.
  - injection E as <-. constructor; assumption.
Qed.

Lemma io_step_last s e s' : io_step s e = Some s' -> ending s' = ending s /\ nsvc s <= nsvc s' /\
  (forall o v, result s' = Some (OFrozen o v) -> inbox s' = [] /\ snd (ending s) = REOF /\ o = concat (msgs s') ++ fst (ending s) /\ v = concat (evs s')).
Proof.
  intros E. unfold io_step in E. destruct (result s); [discriminate|]. destruct e.
  - destruct (evs s); [|discriminate]. destruct (initMessagePacket p); try discriminate. injection E as <-. cbn. repeat split; try lia; discriminate.
  - destruct (may_read s); [|discriminate]. destruct (inbox s) as [|p t] eqn:IB.
    + destruct (ending s) as [b er] eqn:L. destruct er; injection E as <-; cbn; rewrite ?L; (split; [reflexivity|]; split; [lia|]); intros o v H; try discriminate.
      injection H as <- <-. repeat split.
    + destruct (handlePacket (nsvc s) p) as [[m|q]| |]; [|destruct reply as [[r n]|]| |]; injection E as <-; cbn; repeat split; try lia; discriminate.
  - destruct (msgs s); [discriminate|]. injection E as <-. cbn. repeat split; try lia; discriminate.
  - destruct (evs s); [discriminate|]. injection E as <-. cbn. repeat split; try lia; discriminate.
  - injection E as <-. cbn. repeat split; try lia; discriminate.
Qed.

Lemma fifo_run ms0 in0 es : forall s s', Fifo ms0 in0 s -> result s = None -> io_run s es = Some s' ->
  Fifo ms0 in0 s' /\ ending s' = ending s /\ nsvc s <= nsvc s' /\
  (forall o v, result s' = Some (OFrozen o v) -> inbox s' = [] /\ snd (ending s) = REOF /\ o = concat (msgs s') ++ fst (ending s) /\ v = concat (evs s')).
Proof.
  induction es as [|e t IH]; cbn [io_run]; intros s s' F R E.
  - injection E as <-. split; [assumption|]. split; [reflexivity|]. split; [lia|]. intros o v H. congruence.
  - destruct (io_step s e) as [s1|] eqn:S; [|discriminate]. pose proof (fifo_step _ _ _ _ _ F S) as F1.
    pose proof (io_step_last _ _ _ S) as (L1 & L2 & L3).
    destruct (result s1) as [r|] eqn:R1.
    + destruct t as [|e' t].
      * cbn [io_run] in E. injection E as <-. rewrite R1. split; [assumption|]. split; [assumption|]. split; [assumption|].
        intros o v H. apply L3. congruence.
      * cbn [io_run] in E. unfold io_step in E. rewrite R1 in E. discriminate.
    + destruct (IH s1 s' F1 R1 E) as (G1 & G2 & G3 & G4). split; [assumption|]. split; [congruence|]. split; [lia|].
      intros o v H. rewrite <- L1. now apply G4.
Qed.
