From Verif Require Import BaseLemmas Varint VarintProofs StreamState StreamStateProofs ReadStream ReadStreamProofs.

(* Invariant C: wakeups. *)
Record InvC (s : rst) : Prop := MkC {
  c_fin : sub s = false -> r s = true -> token s = false -> poking s = false ->
          has_data (pkt s) = true \/ sdata s <> [] \/ subscribed s <> readpos s \/ pc s = PRd \/ pc s = PFl \/ pc s = PCrash;
  c_reading : match pc s with PReading n => token s = true \/ poking s = true \/ subscribed s <> readpos s | _ => True end;
  c_stop : pc s = PStop \/ pc s = PDone -> r s = true -> token s = false /\ closed s = true;
  c_closed : closed s = true -> poking s = false;
  c_top : pc s = PChk \/ pc s = PSelB -> send s = false -> sub s = true \/ token s = true \/ poking s = true;
  c_block : pc s = PSelB -> sending s = false -> r s = true ->
            subscribed s = readpos s \/ token s = true \/ poking s = true;
  c_end : pc s = PEnd -> r s = false }.

Ltac easyC := try solve [exact I | discriminate | assumption | congruence | intuition congruence].

Lemma InvC_step M L f s e s' : 16 < M < 2 ^ 31 -> InvA s -> InvB L f s -> InvC s -> step M s e = Some s' ->
  (forall hasr, e <> EResume hasr) -> InvC s'.
Proof.
  intros HM HA HB [C1 C2 C3 C4 C5 C6 C7] E NR.
  destruct HA as (A1 & A2 & _). destruct HB as [_ B2 _ B4 B5 _ _ _ _].
  destruct e; unfold step in E; [..|specialize (NR hasr); congruence].
  - clear B2 B4 B5. destruct (poking s || closed s) eqn:PO; [discriminate|]. apply orb_false_iff in PO. destruct PO as [PO CL].
    destruct (negb (sub s) || _ || _) eqn:Q in E.
    { injection E as <-. split; easyC. }
    assert (SU : sub s = true) by (destruct (sub s); [reflexivity|discriminate]). injection E as <-.
    split; simp; easyC. destruct (pc s); easyC.
  - clear B2 B4 B5. destruct (poking s || closed s) eqn:PO; [discriminate|]. apply orb_false_iff in PO. destruct PO as [PO CL].
    destruct (negb (sub s)) eqn:Q in E; injection E as <-; [split; easyC|]. apply negb_false_iff in Q. split; simp; easyC; destruct (pc s); easyC.
  - clear B2 B4 B5. destruct (poking s) eqn:PO in E; [|discriminate]. injection E as <-; split; simp; easyC; destruct (pc s); easyC.
  - clear B2 B4 B5. destruct (poking s || closed s) eqn:PO; [discriminate|]. apply orb_false_iff in PO. destruct PO as [PO CL].
    injection E as <-; split; simp; easyC; destruct (pc s); easyC.
  - clear B2 B4 B5. injection E as <-; split; simp; easyC; destruct (pc s); easyC.
  - destruct (pc s) eqn:PC; try discriminate.
    + destruct (send s || sub s) eqn:Q; inv E.
      * split; simp; easyC.
        -- intros S1 R1 T1 P1. rewrite R1. cbn [negb]. rewrite andb_false_r.
           destruct (C1 S1 R1 T1 P1) as [?|[?|[?|[?|[?|?]]]]]; easyC.
        -- intros _ S1. rewrite S1 in Q. left. exact Q.
      * apply orb_false_iff in Q. destruct Q as [Q1 Q2]. destruct (B4 Q1) as [RR _]. split; simp; easyC.
    + destruct (sending s || negb (r s) || (readpos s =? subscribed s)) eqn:Q; inv E; split; simp; easyC.
      intros _ S1 R1. left. rewrite S1, R1 in Q. cbn [orb negb] in Q. lia.
    + destruct (r s) eqn:RR; [|inv E; split; simp; easyC].
      destruct (u32 _ =? 0) eqn:Q; inv E; split; simp; easyC.
      * intros _ _ _ _. right; right; left. intros W. rewrite W in Q. rewrite Z.sub_diag in Q. discriminate.
      * right; right. intros W. rewrite W in Q. rewrite Z.sub_diag in Q. discriminate.
    + inv E. destruct (sub s) eqn:SU; split; simp; easyC.
    + inv E. split; simp; easyC. 
    + inv E. specialize (B2 ltac:(discriminate) ltac:(discriminate)). split; simp; easyC.
      intros S1 R1 T1 P1. right. destruct (C1 S1 R1 T1 P1) as [H|[H|[H|[H|[H|H]]]]]; easyC.
      * left. destruct (pkt s) as [[|]|]; cbn in H; congruence.
      * right; left. unfold u32. lia.
  - destruct (pc s) eqn:PC; try discriminate. destruct (sending s) eqn:SG; [|discriminate].
    destruct (pkt s) eqn:PK; inv E; split; simp; easyC; rewrite ?andb_false_r; cbn; easyC.
  - destruct (pc s) eqn:PC; try discriminate.
    + destruct (token s) eqn:TK; [|destruct (closed s) eqn:CL; [|discriminate]]; inv E.
      * destruct (sending s) eqn:SG.
        -- destruct B5 as [B5 _]. destruct (B5 eq_refl) as (SE & d & PK & DR). split; simp; rewrite ?PK, ?SG; cbn [andb]; easyC.
           intros S1 R1 _ _. left. destruct DR as [DR|DR]; [|congruence]. destruct d; easyC.
        -- split; simp; rewrite ?SG; cbn [andb]; easyC.
      * specialize (C4 eq_refl). split; simp; easyC.
    + destruct (token s) eqn:TK; [|destruct (closed s) eqn:CL; [|discriminate]]; inv E.
      * split; simp; easyC.
      * split; simp; easyC.
  - destruct (_ && _); [|discriminate].
    destruct (pc s) eqn:PC; try discriminate; inv E; split; simp; easyC;
      destruct (sending s && match pkt s with Some _ => true | None => false end); easyC.
  - destruct (pc s) eqn:PC; try discriminate. destruct (_ || _ || _); [discriminate|]. inv E. split; simp; easyC.
  - destruct (pc s) eqn:PC; try discriminate. destruct (len d >? n) eqn:Q; [discriminate|].
    destruct B5 as (RR & HD & HN). 
    destruct e; inv E; split; simp; easyC.
    intros S1 R1 T1 P1. destruct d as [|b d]; [|now left]. right; right; left.
    unfold len; cbn [length Z.of_nat]. rewrite Z.add_0_r, u32_id by lia. destruct C2 as [?|[?|?]]; easyC.
Qed.
