From Verif Require Import BaseLemmas StreamState WriteStream WriteStreamProofs WriteStreamProofs2 WriteStreamProofs3.

(* No wake-up is lost. *)
Record InvL (s : wst) : Prop := MkL {
  l_honest : honest s = true -> len (acc s) + claim s <= granted s;
  l_block : pc s = WSelB -> w s = true -> P s = C s \/ token s = true \/ chan s = CPoke;
  l_close : rcv s = false -> w s = true -> chan s = CIdle -> token s = false ->
            P s <> C s \/ pc s = WRd \/ pc s = WFl \/ pc s = WEnd \/ pc s = WStop \/ pc s = WDone \/ granted s - C s < size s - 1 }.

Lemma InvL_init sz hasw : pow2 sz -> InvL (winit sz hasw).
Proof.
  intros HS. pose proof (pow2_bounds sz HS) as [HB HD]. unfold winit, wstart. cbn [InitialState Flags Subscribed Data].
  rewrite u32_id by lia. replace (0 >=? sz) with false by lia.
  constructor; simpw; unfold P, C, claim, granted, quiet; simpw; unfold len; cbn; try (intros; discriminate); lia.
Qed.

Lemma InvL_step s e s' : InvW s -> InvL s -> step s e = Some s' -> InvL s'.
Proof.
  intros W [L1 L2 L3] E. pose proof (MkL s L1 L2 L3) as L0. pose proof (masked_P s W) as MP. pose proof (masked_C s W) as MC.
  pose proof (w_pc s W) as WP. pose proof (w_pos s W) as (_ & _ & WC & WA). pose proof (w_flow s W) as (_ & WF).
  pose proof (w_quiet s W) as WQ.
  assert (SZ : 1 <= size s) by (destruct (w_size s W) as [WS1 _]; apply pow2_bounds in WS1; lia).
  pose proof (w_room s W) as WR.
  destruct e; unfold step in E.
  - destruct (chan s) eqn:CH; try discriminate. destruct (closed s); [discriminate|].
    destruct (rcv s) eqn:RC; cbn [negb] in E; [|injection E as <-; exact L0].
    destruct (write_fits s d); cbn [negb] in E; injection E as <-; [|exact L0].
    constructor; start; rewrite ?CH in *.
    + intros Q. apply andb_true_iff in Q. destruct Q as [Q1 Q2]. unfold granted in Q2. lia.
    + intros Q1 Q2. destruct (L2 Q1 Q2) as [K|[K|K]]; [left; exact K|right; left; exact K|discriminate].
    + discriminate.
  - destruct (chan s) eqn:CH; try discriminate. injection E as <-. constructor; start; rewrite ?CH, ?len_app in *.
    + intros Q. specialize (L1 Q). lia.
    + intros Q1 Q2. destruct (L2 Q1 Q2) as [K|[K|K]]; [left; lia|right; left; exact K|discriminate].
    + discriminate.
  - destruct (chan s) eqn:CH; try discriminate. injection E as <-. constructor; start; rewrite ?CH in *; try tauto. discriminate.
  - destruct (chan s) eqn:CH; try discriminate. injection E as <-. constructor; start; rewrite ?CH in *; try tauto. discriminate.
  - destruct (chan s) eqn:CH; try discriminate. destruct (closed s); [discriminate|].
    destruct (rcv s) eqn:RC; cbn [negb] in E; injection E as <-; (constructor; start; rewrite ?CH, ?RC in *; try tauto; try discriminate).
  - destruct (chan s) eqn:CH; try discriminate. destruct (closed s); [discriminate|]. injection E as <-. constructor; start; rewrite ?CH in *; tauto.
  - injection E as <-. constructor; start; tauto.
  - destruct (pc s) eqn:PC; try discriminate.
    + destruct (send s || rcv s); injection E as <-; (constructor; start; try tauto; try discriminate).
      intros A1 A2 A3 A4. destruct (L3 A1 A2 A3 A4) as [K|[K|[K|[K|[K|[K|K]]]]]]; try discriminate; tauto.
    + injection E as <-. constructor; start; try tauto.
      * intros Q Q2. rewrite Q2 in Q. cbn [negb orb] in Q. destruct (cons s =? _) eqn:Q3; [|discriminate]. left.
        rewrite MP in Q3. destruct WP as [WP _]. rewrite WP in Q3.
        assert (0 <= match chan s with CCopy d => len d | _ => 0 end) by (destruct (chan s); try lia; apply len_nonneg).
        pose proof (len_nonneg (out s)).
        symmetry. destruct (lap (size s) (len (out s)) (len (acc s) - match chan s with CAdd n => n | _ => 0 end) ltac:(lia) ltac:(lia) ltac:(lia)) as (K1 & _). apply K1. lia.
      * intros A1 A2 A3 A4. destruct (L3 A1 A2 A3 A4) as [K|[K|[K|[K|[K|[K|K]]]]]]; try discriminate; tauto.
    + destruct (w s) eqn:WW.
      * rewrite MP in E. destruct (cons s =? P s mod size s) eqn:Q; injection E as <-; (constructor; start; try tauto; try discriminate).
        intros A1 A2 A3 A4. left. intros K. rewrite WP in Q. rewrite K in Q. lia.
      * injection E as <-. constructor; start; try tauto; try discriminate. congruence.
    + injection E as <-. destruct (rcv s) eqn:RC; (constructor; start; try tauto; try discriminate; try congruence).
    + injection E as <-. constructor; start; try tauto; try discriminate.
    + destruct (if _ =? _ then _ else _) in E. injection E as <-. constructor; start; try tauto; try discriminate.
  - assert (K : (pc s = WSelB \/ pc s = WSelN) /\ sending s = true /\ s' =
    WS (size s) (buf s) (rcv s) (produced s) (consumed s) (u32 (wsub s + increment s)) (token s) (closed s) (cancelled s) (chan s)
                     WRd (w s) (w s && send s) (done s) (sending s) (increment s) (cons s) (werror s) (fdata s) (fpad s)
                     (acc s) (out s) (flows s ++ [increment s]) (honest s)).
    { destruct (pc s); try discriminate; (destruct (sending s); [|discriminate]); injection E as <-; tauto. }
    destruct K as (PC & SG & ->).
    assert (IP : 0 <= increment s) by (destruct PC as [PC|PC]; rewrite PC in WP; destruct WP as (_ & K & _); apply K in SG; lia).
    constructor; start; try tauto; try discriminate.
    intros Q. specialize (L1 Q).
    assert (G : fold_right Z.add 0 (flows s ++ [increment s]) = fold_right Z.add 0 (flows s) + increment s)
      by (clear; induction (flows s) as [|x l IH]; cbn [app fold_right]; lia).
    lia.
  - destruct (pc s) eqn:PC; try discriminate; (destruct (token s) eqn:TK; [|destruct (closed s) eqn:CL; [|discriminate]]); injection E as <-;
      (constructor; start; try tauto; try discriminate).
  - destruct (_ && _) in E; [|discriminate]. destruct (pc s) eqn:PC; try discriminate; injection E as <-; (constructor; start; try tauto; try discriminate).
  - destruct (pc s) eqn:PC; try discriminate. destruct (_ || _ || _) in E; [discriminate|]. injection E as <-; (constructor; start; try tauto; try discriminate).
  - destruct (pc s) eqn:PC; try discriminate. destruct ((n <? 0) || (n >? hi - lo) || _) eqn:Q; [discriminate|].
    apply orb_false_iff in Q. destruct Q as [Q Q3]. apply orb_false_iff in Q. destruct Q as [Q1 Q2].
    destruct WP as (W1 & W2 & W3 & W4). destruct W as [[W5 W6] _ _ _ _ _ _ _ _].
    assert (0 <= lo < size s) by (rewrite W1; apply Z.mod_pos_bound; lia).
    assert (LF : len (firstn (Z.to_nat n) (sub_slice lo hi (buf s))) = n).
    { pose proof (len_sub_slice lo hi (buf s) ltac:(lia) ltac:(lia)) as LS. unfold len in *. rewrite firstn_length. lia. }
    destruct e; injection E as <-; (constructor; start; try tauto; try discriminate).
    intros A1 A2 A3 A4. right. right. right. right. right. right. rewrite len_app, LF. rewrite andb_true_r in Q3. lia.
Qed.

Lemma InvL_run es : forall s s', InvW s -> InvL s -> wrun s es = Some s' -> InvL s'.
Proof.
  induction es as [|e t IH]; cbn [wrun]; intros s s' I L E; [now injection E as <-|].
  destruct (step s e) as [s1|] eqn:S; [|discriminate]. apply (IH s1 s'); try assumption; [now apply (InvW_step s e)|now apply (InvL_step s e)].
Qed.
