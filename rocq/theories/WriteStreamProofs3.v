From Coq Require Import Znumtheory.
From Verif Require Import BaseLemmas StreamState WriteStream WriteStreamProofs WriteStreamProofs2.

(* Channel side *)
Lemma InvW_write s d s' : InvW s -> step s (EWrite d) = Some s' -> InvW s'.
Proof.
  intros I E. pose proof (used_value s I) as HU. unfold step in E. destruct (chan s) eqn:CH; try discriminate.
  destruct (closed s) eqn:CL; [discriminate|]. destruct (rcv s) eqn:RC; cbn [negb] in E; [|now injection E as <-].
  unfold write_fits in E. rewrite HU in E.
  destruct (P s - C s + len d >=? size s) eqn:FT; cbn [negb] in E; [now injection E as <-|]. injection E as <-.
  destruct I as [I1 I2 I3 I4 I5 I6 I7 I8 I9].
  assert (PA : P s = len (acc s)) by (unfold P; rewrite CH; lia).
  constructor; unfold P, C, claim, granted, quiet in *; simpw; rewrite ?CH, ?RC, ?CL in *; try assumption.
  - lia.
  - intros [Q|Q]; congruence.
Qed.

Lemma InvW_copy s s' : InvW s -> step s ECopy = Some s' -> InvW s'.
Proof.
  intros I E. unfold step in E. destruct (chan s) eqn:CH; try discriminate. injection E as <-.
  rewrite (masked_P s I). destruct I as [I1 I2 I3 I4 I5 I6 I7 I8 I9]. destruct I1 as [I1 I1']. pose proof (pow2_bounds _ I1) as [HB HD].
  assert (PA : P s = len (acc s)) by (unfold P; rewrite CH; lia).
  assert (CC : claim s = len d) by (unfold claim; now rewrite CH).
  pose proof (len_nonneg d). pose proof (len_nonneg (acc s)). pose proof (len_nonneg (out s)).
  pose proof (Z.mod_pos_bound (P s) (size s) ltac:(lia)).
  destruct I2 as (I2a & I2b & I2c & I2d).
  assert (QU : ~ (rcv s = false \/ closed s = true)).
  { intros Q. apply I9 in Q. unfold quiet in Q. rewrite CH in Q. destruct Q; discriminate. }
  assert (LD : len d <= size s) by (unfold C in *; lia).
  constructor; unfold P, C, claim, granted, quiet in *; simpw; rewrite ?len_app in *; rewrite CH in *.
  - split; [assumption|]. apply len_write_ring; try assumption; lia.
  - rewrite Z.add_simpl_r. rewrite Z.sub_0_r in *. repeat split; try assumption; lia.
  - lia.
  - intros i Hi. rewrite Z.sub_0_r in *.
    pose proof (Z.mod_pos_bound i (size s) ltac:(lia)).
    rewrite at_write_ring; try assumption.
    destruct (Z.ltb_spec i (len (acc s))) as [HL|HL].
    + assert (HD2 : (i mod size s - len (acc s) mod size s) mod size s = i - len (acc s) + size s).
      { rewrite <- Zminus_mod. rewrite <- (Z.mod_add _ 1) by lia. rewrite Z.mul_1_l. apply Z.mod_small. lia. }
      rewrite HD2. replace (i - len (acc s) + size s <? len d) with false by lia.
      rewrite at_app1 by lia. apply I4. lia.
    + assert (HD2 : (i mod size s - len (acc s) mod size s) mod size s = i - len (acc s)).
      { rewrite <- Zminus_mod. apply Z.mod_small. lia. }
      rewrite HD2. replace (i - len (acc s) <? len d) with true by lia.
      rewrite at_app2 by lia. reflexivity.
  - intros i Hi. rewrite at_app1 by lia. now apply I5.
  - assumption.
  - destruct (pc s); try assumption.
    + rewrite Z.add_simpl_r. rewrite Z.sub_0_r in *. assumption.
    + destruct I7 as [I7 _]. contradiction.
  - assumption.
  - intros Q. contradiction.
Qed.

Lemma InvW_add s s' : InvW s -> step s EAdd = Some s' -> InvW s'.
Proof.
  intros I E. unfold step in E. destruct (chan s) eqn:CH; try discriminate. injection E as <-.
  destruct I as [I1 I2 I3 I4 I5 I6 I7 I8 I9].
  assert (QU : ~ (rcv s = false \/ closed s = true)).
  { intros Q. apply I9 in Q. unfold quiet in Q. rewrite CH in Q. destruct Q; discriminate. }
  destruct I2 as (I2a & I2b & I2c & I2d).
  constructor; unfold P, C, claim, granted, quiet in *; simpw; rewrite CH in *; try assumption.
  - repeat split; try assumption; try lia. rewrite I2a. unfold u32. rewrite Zplus_mod_idemp_l. f_equal. lia.
  - destruct (pc s); try assumption. rewrite Z.sub_0_r. destruct I7 as (?&?&?&?). repeat split; try assumption; try lia.
  - now right.
Qed.

Lemma InvW_poke s s' : InvW s -> step s EPoke = Some s' -> InvW s'.
Proof.
  intros I E. unfold step in E. destruct (chan s) eqn:CH; try discriminate. injection E as <-.
  destruct I as [I1 I2 I3 I4 I5 I6 I7 I8 I9].
  constructor; unfold P, C, claim, granted, quiet in *; simpw; rewrite CH in *; try assumption. now left.
Qed.

Lemma InvW_close s s' : InvW s -> step s ECloseWrite = Some s' -> InvW s'.
Proof.
  intros I E. unfold step in E. destruct (chan s) eqn:CH; try discriminate.
  destruct (closed s) eqn:CL; [discriminate|]. destruct (rcv s) eqn:RC; cbn [negb] in E; [|now injection E as <-]. injection E as <-.
  destruct I as [I1 I2 I3 I4 I5 I6 I7 I8 I9].
  constructor; unfold P, C, claim, granted, quiet in *; simpw; rewrite CH in *; try assumption.
  - destruct (pc s); try assumption; try reflexivity; try (now left).
    destruct I7 as [_ I7]. split; [now left|assumption].
  - now right.
Qed.

Lemma InvW_stop s s' : InvW s -> step s EStopTransfer = Some s' -> InvW s'.
Proof.
  intros I E. unfold step in E. destruct (chan s) eqn:CH; try discriminate.
  destruct (closed s) eqn:CL; [discriminate|]. injection E as <-.
  destruct I as [I1 I2 I3 I4 I5 I6 I7 I8 I9].
  constructor; unfold P, C, claim, granted, quiet in *; simpw; rewrite CH in *; try assumption.
  - destruct (pc s); try assumption; try (now right). destruct I7 as [_ I7]. split; [now right|assumption].
  - now left.
Qed.

Lemma InvW_cancel s s' : InvW s -> step s ECancel = Some s' -> InvW s'.
Proof.
  intros I E. injection E as <-. destruct I as [I1 I2 I3 I4 I5 I6 I7 I8 I9].
  constructor; unfold P, C, claim, granted, quiet in *; simpw; assumption.
Qed.

Ltac start := unfold P, C, claim, granted, quiet in *; simpw.

(* the linear copy made at the end *)
Lemma final_data s : InvW s -> quiet s ->
  let c := C s mod size s in let p := len (acc s) mod size s in
  (c = p -> skipn (length (out s)) (acc s) = []) /\
  (c < p -> skipn (length (out s)) (acc s) = sub_slice c p (buf s)) /\
  (p < c -> skipn (length (out s)) (acc s) = sub_slice c (size s) (buf s) ++ sub_slice 0 p (buf s)).
Proof.
  intros I Q c p. destruct (quiet_P s Q) as [PA CL]. destruct I as [[I1 I1'] I2 I3 I4 I5 I6 I7 I8 I9].
  pose proof (pow2_bounds _ I1) as [HB _]. destruct I2 as (_ & _ & I2c & _). rewrite PA in I2c. rewrite CL in I3.
  pose proof (len_nonneg (out s)) as HO.
  assert (HC0 : 0 <= C s) by exact HO.
  destruct (lap (size s) (C s) (len (acc s)) ltac:(lia) ltac:(lia) ltac:(lia)) as (L1 & L2 & L3). fold c p in L1, L2, L3.
  assert (LS : len (skipn (length (out s)) (acc s)) = len (acc s) - C s) by (unfold C, len; rewrite skipn_length; unfold C, len in I2c; lia).
  assert (AT : forall i, 0 <= i < len (acc s) - C s -> at_ (skipn (length (out s)) (acc s)) i = at_ (buf s) ((C s + i) mod size s)).
  { intros i Hi. rewrite I4 by lia. rewrite <- (at_skipn (acc s) (C s) i) by lia. f_equal. f_equal. unfold C, len. lia. }
  assert (0 <= c < size s) by (apply Z.mod_pos_bound; lia). assert (0 <= p < size s) by (apply Z.mod_pos_bound; lia).
  split; [|split]; intros HCP.
  - specialize (L1 HCP). apply length_zero_iff_nil. unfold len in LS at 1. lia.
  - specialize (L2 HCP). apply at_ext; [rewrite LS, len_sub_slice; lia|]. rewrite LS. intros i Hi.
    rewrite AT by lia. rewrite at_sub_slice by lia. f_equal. apply pos_mod; fold c; lia.
  - specialize (L3 HCP).
    assert (LA : len (sub_slice c (size s) (buf s)) = size s - c) by (apply len_sub_slice; lia).
    assert (LB : len (sub_slice 0 p (buf s)) = p) by (rewrite len_sub_slice; lia).
    apply at_ext; [rewrite LS, len_app; lia|]. rewrite LS. intros i Hi. rewrite AT by lia.
    destruct (Z.ltb_spec i (size s - c)).
    + rewrite at_app1 by lia. rewrite at_sub_slice by lia. f_equal. apply pos_mod; fold c; lia.
    + rewrite at_app2 by lia. rewrite LA. rewrite at_sub_slice by lia. f_equal.
      rewrite pos_mod_wrap by (fold c; lia). fold c. lia.
Qed.

Lemma InvW_tick s s' : InvW s -> step s ETick = Some s' -> InvW s'.
Proof.
  intros I E. unfold step in E. pose proof (masked_P s I) as MP. pose proof (masked_C s I) as MC.
  destruct (pc s) eqn:PC; try discriminate.
  - (* WTop *)
    destruct (send s || rcv s) eqn:Q; injection E as <-; pose proof I as [I1 I2 I3 I4 I5 I6 I7 I8 I9]; destruct I1 as [I1 I1']; pose proof (pow2_bounds _ I1) as [HB HD].
    + rewrite MC. destruct I6 as [I6 I6'].
      assert (IV : s32 (s32 (u32 (u32 (size s) - wsub s)) - 1) = s32 (size s - 1 - (granted s - C s))) by (rewrite I6; now apply inc_value).
      rewrite IV. constructor; try (start; tauto).
      unfold C, granted in *; simpw. split; [reflexivity|]. split.
      * intros SG. apply andb_true_iff in SG. destruct SG as [SE SG]. split; [assumption|]. rewrite SE in *. cbn [andb] in *.
        destruct (w s); cbn [negb orb] in *; [left|right]; split; try reflexivity.
        pose proof (s32_le (size s - 1 - (fold_right Z.add 0 (flows s) - len (out s))) ltac:(lia)). lia.
      * intros SG SE. rewrite SE in *. cbn [andb] in *. destruct (w s); cbn [negb orb] in *; [|discriminate]. split; [reflexivity|]. lia.
    + apply orb_false_iff in Q. destruct Q as [Q1 Q2]. constructor; start; tauto.
  - (* WChk *)
    injection E as <-. pose proof I as [I1 I2 I3 I4 I5 I6 I7 I8 I9]. rewrite PC in I7.
    constructor; try (start; tauto). simpw. destruct (_ || _); start; tauto.
  - (* WRd *)
    destruct (w s) eqn:WW; pose proof I as [I1 I2 I3 I4 I5 I6 I7 I8 I9]; rewrite PC in I7.
    + rewrite MP in E. destruct (cons s =? P s mod size s) eqn:Q; injection E as <-; (constructor; try (start; tauto)); simpw; start; try tauto.
      destruct I1 as [I1 I1']. pose proof (pow2_bounds _ I1) as [HB HD].
      destruct I2 as (I2a & I2b & I2c & I2d). pose proof (len_nonneg (out s)) as HO.
      assert (0 <= match chan s with CCopy d => len d | _ => 0 end) by (destruct (chan s); try lia; apply len_nonneg).
      destruct (lap (size s) (len (out s)) (len (acc s) - match chan s with CAdd n => n | _ => 0 end) ltac:(lia) ltac:(lia) ltac:(lia)) as (L1 & L2 & L3).
      pose proof (Z.mod_pos_bound (len (out s)) (size s) ltac:(lia)).
      pose proof (Z.mod_pos_bound (len (acc s) - match chan s with CAdd n => n | _ => 0 end) (size s) ltac:(lia)).
      rewrite I7 in *. split; [reflexivity|].
      destruct (_ <? _) eqn:Q2; repeat split; try assumption; lia.
    + injection E as <-; constructor; start; tauto.
  - (* WFl *)
    injection E as <-. destruct (rcv s) eqn:RC; pose proof I as [I1 I2 I3 I4 I5 I6 I7 I8 I9]; constructor; start; try tauto.
  - (* WEnd *)
    injection E as <-. pose proof I as [I1 I2 I3 I4 I5 I6 I7 I8 I9]. rewrite PC in I7. constructor; start; tauto.
  - (* WStop *)
    rewrite MP, MC in E. pose proof I as [I1 I2 I3 I4 I5 I6 I7 I8 I9]. rewrite PC in I7.
    pose proof (I9 I7) as QU. destruct (quiet_P s QU) as [PA CL]. rewrite PA in E.
    destruct (final_data s I QU) as (F1 & F2 & F3).
    destruct I1 as [I1 I1']. pose proof (pow2_bounds _ I1) as [HB HD].
    pose proof (Z.mod_pos_bound (C s) (size s) ltac:(lia)). pose proof (Z.mod_pos_bound (len (acc s)) (size s) ltac:(lia)).
    destruct (C s mod size s =? len (acc s) mod size s) eqn:Q1; [|destruct (C s mod size s <? len (acc s) mod size s) eqn:Q2]; injection E as <-;
     (constructor; try (start; tauto)); unfold C in *; simpw; (split; [assumption|]).
    + rewrite F1 by lia. split; [reflexivity|]. destruct (_ <=? _) eqn:Q3; lia.
    + rewrite F2 by lia. split; [reflexivity|]. destruct (_ <=? _) eqn:Q3; lia.
    + rewrite F3 by lia. split; [reflexivity|]. destruct (_ <=? _) eqn:Q3; [lia|]. unfold u32. lia.
Qed.

Lemma InvW_accept s s' : InvW s -> step s EAccept = Some s' -> InvW s'.
Proof.
  intros I E. pose proof I as [I1 I2 I3 I4 I5 I6 I7 I8 I9].
  assert (K : (pc s = WSelB \/ pc s = WSelN) /\ sending s = true /\ s' =
    WS (size s) (buf s) (rcv s) (produced s) (consumed s) (u32 (wsub s + increment s)) (token s) (closed s) (cancelled s) (chan s)
                     WRd (w s) (w s && send s) (done s) (sending s) (increment s) (cons s) (werror s) (fdata s) (fpad s)
                     (acc s) (out s) (flows s ++ [increment s]) (honest s)).
  { unfold step in E. destruct (pc s); try discriminate; (destruct (sending s); [|discriminate]); injection E as <-; tauto. }
  destruct K as (PC & SG & ->).
  assert (I7' : cons s = C s mod size s /\ send s = true /\
     ((w s = true /\ 0 < increment s <= size s - 1 - (granted s - C s)) \/ (w s = false /\ increment s = 0)))
    by (destruct PC as [PC|PC]; rewrite PC in I7; tauto).
  destruct I7' as (H1 & H2 & H3). destruct I6 as [I6 I6'].
  assert (G : granted (WS (size s) (buf s) (rcv s) (produced s) (consumed s) (u32 (wsub s + increment s)) (token s) (closed s) (cancelled s) (chan s)
                     WRd (w s) (w s && send s) (done s) (sending s) (increment s) (cons s) (werror s) (fdata s) (fpad s)
                     (acc s) (out s) (flows s ++ [increment s]) (honest s)) = granted s + increment s).
  { unfold granted; simpw. clear. induction (flows s) as [|x l IH]; cbn [app fold_right]; lia. }
  constructor; try (start; tauto).
  - rewrite G. unfold C in *; simpw. split.
    + rewrite I6. unfold u32. rewrite Zplus_mod_idemp_l. f_equal. lia.
    + lia.
  - simpw. rewrite H2. destruct H3 as [[H3 H4]|[H3 H4]]; rewrite H3; cbn [andb].
    + split; [|discriminate]. intros _. apply Forall_app. split; [now apply I8|]. constructor; [lia|constructor].
    + split; [discriminate|]. intros _. split; [reflexivity|]. exists (flows s). rewrite H4. split; [reflexivity|]. now apply I8.
Qed.

Lemma InvW_wake s s' : InvW s -> step s EWake = Some s' -> InvW s'.
Proof.
  intros I E. pose proof I as [I1 I2 I3 I4 I5 I6 I7 I8 I9]. unfold step in E.
  destruct (pc s) eqn:PC; try discriminate; (destruct (token s) eqn:TK; [|destruct (closed s) eqn:CL; [|discriminate]]); injection E as <-; constructor; start; tauto.
Qed.

Lemma InvW_done s s' : InvW s -> step s EDone = Some s' -> InvW s'.
Proof.
  intros I E. pose proof I as [I1 I2 I3 I4 I5 I6 I7 I8 I9]. unfold step in E. destruct (_ && _) in E; [|discriminate].
  destruct (pc s) eqn:PC; try discriminate; injection E as <-; constructor; start; tauto.
Qed.

Lemma InvW_default s s' : InvW s -> step s EDefault = Some s' -> InvW s'.
Proof.
  intros I E. pose proof I as [I1 I2 I3 I4 I5 I6 I7 I8 I9]. unfold step in E.
  destruct (pc s) eqn:PC; try discriminate. destruct (_ || _ || _) in E; [discriminate|]. injection E as <-; constructor; start; tauto.
Qed.

Lemma InvW_written s n e s' : InvW s -> step s (EWritten n e) = Some s' -> InvW s'.
Proof.
  intros I E. pose proof I as [I1 I2 I3 I4 I5 I6 I7 I8 I9]. unfold step in E.
  destruct (pc s) eqn:PC; try discriminate. destruct ((n <? 0) || (n >? hi - lo) || _) eqn:Q; [discriminate|].
  apply orb_false_iff in Q. destruct Q as [Q _]. apply orb_false_iff in Q. destruct Q as [Q1 Q2].
  destruct I1 as [I1 I1']. pose proof (pow2_bounds _ I1) as [HB HD]. destruct I7 as (L1 & L2 & L3 & L4).
  destruct I2 as (I2a & I2b & I2c & I2d). pose proof (len_nonneg (out s)) as HO.
  set (s1 := WS (size s) (buf s) (rcv s) (produced s) (u32 (consumed s + n)) (u32 (wsub s - n)) (token s) (closed s) (cancelled s) (chan s)
                         WTop (w s) (send s) (done s) (sending s) (increment s) (cons s) false (fdata s) (fpad s)
                         (acc s) (out s ++ firstn (Z.to_nat n) (sub_slice lo hi (buf s))) (flows s) (honest s)) in *.
  assert (0 <= lo < size s) by (rewrite L1; apply Z.mod_pos_bound; lia).
  assert (LF : len (firstn (Z.to_nat n) (sub_slice lo hi (buf s))) = n).
  { pose proof (len_sub_slice lo hi (buf s) ltac:(lia) ltac:(lia)) as LS. unfold len in *. rewrite firstn_length. lia. }
  assert (CN : C s1 = C s + n) by (unfold C, s1; simpw; rewrite len_app, LF; reflexivity).
  assert (AF : forall i, 0 <= i < n -> at_ (firstn (Z.to_nat n) (sub_slice lo hi (buf s))) i = at_ (acc s) (C s + i)).
  { intros i Hi. rewrite at_firstn by lia. rewrite at_sub_slice by lia. rewrite <- I4 by (unfold C in *; lia).
    f_equal. rewrite L1. symmetry. apply pos_mod; unfold C in *; lia. }
  assert (I' : InvW s1).
  { constructor.
    - now split.
    - assert (EP : P s1 = P s) by reflexivity. rewrite EP, CN. repeat split; try assumption; [|lia].
      unfold s1; simpw. rewrite I2b. unfold u32. now rewrite Zplus_mod_idemp_l.
    - rewrite CN. unfold claim, s1 in *; simpw. lia.
    - rewrite CN. unfold s1; simpw. intros i Hi. apply I4. lia.
    - rewrite CN. unfold s1; simpw. intros i Hi. destruct (Z.ltb_spec i (len (out s))).
      + rewrite at_app1 by lia. apply I5. unfold C. lia.
      + rewrite at_app2 by lia. rewrite AF by (unfold C in *; lia). f_equal. unfold C. lia.
    - rewrite CN. unfold granted, s1 in *; simpw. destruct I6 as [I6 I6']. split; [|lia]. rewrite I6. unfold u32. rewrite Zminus_mod_idemp_l. f_equal. lia.
    - exact Logic.I.
    - exact I8.
    - exact I9. }
  assert (P1 : pc s1 = WTop) by reflexivity.
  clearbody s1. destruct I' as [J1 J2 J3 J4 J5 J6 J7 J8 J9]. rewrite P1 in J7.
  destruct e; injection E as <-; (constructor; start; rewrite ?P1; tauto).
Qed.

Lemma InvW_step s e s' : InvW s -> step s e = Some s' -> InvW s'.
Proof.
  intros I. destruct e.
  - now apply InvW_write.
  - now apply InvW_copy.
  - now apply InvW_add.
  - now apply InvW_poke.
  - now apply InvW_close.
  - now apply InvW_stop.
  - now apply InvW_cancel.
  - now apply InvW_tick.
  - now apply InvW_accept.
  - now apply InvW_wake.
  - now apply InvW_done.
  - now apply InvW_default.
  - now apply InvW_written.
Qed.

Lemma InvW_run es : forall s s', InvW s -> wrun s es = Some s' -> InvW s'.
Proof.
  induction es as [|e t IH]; cbn [wrun]; intros s s' I E; [now injection E as <-|].
  destruct (step s e) as [s1|] eqn:S; [|discriminate]. apply (IH s1 s'); [now apply (InvW_step s e)|assumption].
Qed.
