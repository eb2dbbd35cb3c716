From Verif Require Import BaseLemmas StreamState WriteStream WriteStreamProofs WriteStreamProofs2 WriteStreamProofs3 WriteStreamProofs4.

(* A transfer that is stopped while its writer is alive does not leave a
   wrapped ring. *)
Definition straight (s : wst) : Prop := C s mod size s <= P s mod size s.

Record InvN (s : wst) : Prop := MkN {
  n_closed : closed s = true -> chan s = CIdle;
  n_stop : pc s = WStop \/ pc s = WDone \/ pc s = WEnd -> w s = true -> closed s = true /\ token s = false;
  n_straight : w s = true -> token s = false -> chan s <> CPoke ->
    match pc s with
    | WRd => True
    | WWriting lo hi => hi - lo = P s - C s \/ hi = size s
    | _ => straight s
    end }.

Lemma InvN_init sz hasw : pow2 sz -> InvN (winit sz hasw).
Proof.
  intros HS. pose proof (pow2_bounds sz HS) as [HB HD]. unfold winit, wstart. cbn [InitialState Flags Subscribed Data].
  rewrite u32_id by lia. replace (0 >=? sz) with false by lia.
  constructor; unfold straight; simpw; unfold P, C; simpw; unfold len; cbn; try discriminate; try lia. intuition discriminate.
Qed.

Ltac startn := unfold straight, P, C, claim, granted, quiet in *; simpw.

Lemma InvN_step s e s' : InvW s -> InvN s -> step s e = Some s' -> InvN s'.
Proof.
  intros W [L1 L2 L3] E. pose proof (MkN s L1 L2 L3) as L0. pose proof (masked_P s W) as MP. pose proof (masked_C s W) as MC.
  pose proof (w_pc s W) as WP. pose proof (w_pos s W) as (_ & _ & WC & WA).
  pose proof (w_flows s W) as [_ WF].
  assert (SZ : 1 <= size s) by (destruct (w_size s W) as [WS1 _]; apply pow2_bounds in WS1; lia).
  pose proof (w_room s W) as WR.
  destruct e; unfold step in E.
  - destruct (chan s) eqn:CH; try discriminate. destruct (closed s) eqn:CL; [discriminate|].
    destruct (rcv s) eqn:RC; cbn [negb] in E; [|injection E as <-; exact L0].
    destruct (write_fits s d); cbn [negb] in E; injection E as <-; [|exact L0].
    constructor; startn; rewrite ?CH in *; try tauto; try discriminate.
    intros A1 A2 A3. apply L3; try assumption. discriminate.
  - destruct (chan s) eqn:CH; try discriminate. injection E as <-. constructor; startn; rewrite ?CH, ?len_app in *; try tauto.
    + intros Q. apply L1 in Q. discriminate.
    + intros A1 A2 A3. rewrite Z.add_simpl_r. rewrite Z.sub_0_r in L3. apply L3; try assumption. discriminate.
  - destruct (chan s) eqn:CH; try discriminate. injection E as <-. constructor; startn; rewrite ?CH, ?len_app in *; try tauto.
    intros Q. apply L1 in Q. discriminate.
  - destruct (chan s) eqn:CH; try discriminate. injection E as <-. constructor; startn; rewrite ?CH, ?len_app in *; try tauto; try discriminate.
    intros Q1 Q2. destruct (L2 Q1 Q2) as [Q3 _]. apply L1 in Q3. discriminate.
  - destruct (chan s) eqn:CH; try discriminate. destruct (closed s) eqn:CL; [discriminate|].
    destruct (rcv s) eqn:RC; cbn [negb] in E; [|injection E as <-; exact L0]. injection E as <-.
    constructor; startn; rewrite ?CH, ?RC in *; try tauto; try discriminate.
  - destruct (chan s) eqn:CH; try discriminate. destruct (closed s) eqn:CL; [discriminate|]. injection E as <-.
    constructor; startn; rewrite ?CH in *; try tauto; try (intros Q1 Q2; destruct (L2 Q1 Q2); discriminate).
  - injection E as <-. constructor; startn; tauto.
  - destruct (pc s) eqn:PC; try discriminate.
    + destruct (send s) eqn:SE; [|destruct (WF eq_refl) as [WF1 _]]; cbn [orb] in E;
        [|destruct (rcv s)]; injection E as <-; (constructor; startn; try tauto; try (intuition discriminate)); try congruence.
    + injection E as <-. constructor; startn; try tauto.
      * destruct (_ || _); intuition discriminate.
      * destruct (_ || _); tauto.
    + destruct (w s) eqn:WW.
      * rewrite MP in E. destruct (cons s =? P s mod size s) eqn:Q; injection E as <-; (constructor; startn; try tauto; try (intuition discriminate)).
        -- intros _ _ _. rewrite WP in Q. lia.
        -- intros _ A2 A3. destruct (_ <? _) eqn:Q2; [left|now right].
           assert (0 <= match chan s with CCopy d => len d | _ => 0 end) by (destruct (chan s); try lia; apply len_nonneg).
           pose proof (len_nonneg (out s)). rewrite WP in Q, Q2 |- *.
           destruct (lap (size s) (len (out s)) (len (acc s) - match chan s with CAdd n => n | _ => 0 end) ltac:(lia) ltac:(lia) ltac:(lia)) as (K1 & K2 & K3). lia.
      * injection E as <-. constructor; startn; try tauto; try congruence.
    + injection E as <-. destruct (rcv s) eqn:RC; (constructor; startn; try tauto; try congruence; try (intuition discriminate)).
    + injection E as <-. constructor; startn; try tauto; try (intros A1 A2; destruct (L2 ltac:(tauto) A2); tauto).
    + destruct (if _ =? _ then _ else _) in E. injection E as <-. constructor; startn; try tauto; try (intros _ A2; apply L2; tauto).
  - assert (K : (pc s = WSelB \/ pc s = WSelN) /\ sending s = true /\ s' =
    WS (size s) (buf s) (rcv s) (produced s) (consumed s) (u32 (wsub s + increment s)) (token s) (closed s) (cancelled s) (chan s)
                     WRd (w s) (w s && send s) (done s) (sending s) (increment s) (cons s) (werror s) (fdata s) (fpad s)
                     (acc s) (out s) (flows s ++ [increment s]) (honest s)).
    { destruct (pc s); try discriminate; (destruct (sending s); [|discriminate]); injection E as <-; tauto. }
    destruct K as (PC & SG & ->). constructor; startn; try tauto. intuition discriminate.
  - destruct (pc s) eqn:PC; try discriminate; (destruct (token s) eqn:TK; [|destruct (closed s) eqn:CL; [|discriminate]]); injection E as <-;
      (constructor; startn; try tauto; try (intuition discriminate)).
  - destruct (_ && _) in E; [|discriminate]. destruct (pc s) eqn:PC; try discriminate; injection E as <-; (constructor; startn; try tauto; try congruence; try (intuition discriminate)).
  - destruct (pc s) eqn:PC; try discriminate. destruct (_ || _ || _) in E; [discriminate|]. injection E as <-; (constructor; startn; try tauto; try discriminate; try (intuition discriminate)).
  - destruct (pc s) eqn:PC; try discriminate. destruct ((n <? 0) || (n >? hi - lo) || _) eqn:Q; [discriminate|].
    apply orb_false_iff in Q. destruct Q as [Q Q3]. apply orb_false_iff in Q. destruct Q as [Q1 Q2].
    destruct WP as (W1 & W2 & W3 & W4). destruct W as [[W5 W6] _ _ _ _ _ _ _ _].
    assert (0 <= lo < size s) by (rewrite W1; apply Z.mod_pos_bound; lia).
    assert (LF : len (firstn (Z.to_nat n) (sub_slice lo hi (buf s))) = n).
    { pose proof (len_sub_slice lo hi (buf s) ltac:(lia) ltac:(lia)) as LS. unfold len in *. rewrite firstn_length. lia. }
    destruct e; injection E as <-; (constructor; startn; try tauto; try congruence; try (intuition discriminate)).
    intros A1 A2 A3. specialize (L3 A1 A2 A3). rewrite andb_true_r in Q3. rewrite len_app, LF. destruct L3 as [L3|L3].
    + replace (len (out s) + n) with (len (acc s) - match chan s with CAdd n => n | _ => 0 end) by lia. lia.
    + assert (len (out s) + n = (len (out s) / size s + 1) * size s) as ->.
      { pose proof (Z.div_mod (len (out s)) (size s) ltac:(lia)). lia. }
      rewrite Z_mod_mult. apply Z.mod_pos_bound. lia.
Qed.

Lemma InvN_run es : forall s s', InvW s -> InvN s -> wrun s es = Some s' -> InvN s'.
Proof.
  induction es as [|e t IH]; cbn [wrun]; intros s s' I L E; [now injection E as <-|].
  destruct (step s e) as [s1|] eqn:S; [|discriminate]. apply (IH s1 s'); try assumption; [now apply (InvW_step s e)|now apply (InvN_step s e)].
Qed.
