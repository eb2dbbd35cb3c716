(* ReplProps.v: C147. *)
From Verif Require Import Repl.
From Coq Require Import Lia.
Open Scope nat_scope.

(* ---- Specification ---- *)
(* What an instance's binary messages say *)
Definition output (l : list frame) : bytes := concat (map (fun f => match f with Text => [] | Binary p => concat p end) l).
Fixpoint first_message (l : list frame) : option bytes :=
  match l with [] => None | Text :: t => first_message t | Binary p :: _ => Some (concat p) end.
Definition sent (l : list event) : list bytes := flat_map (fun e => match e with Sent b => [b] | _ => [] end) l.
(* Printing has ended: with so many Read calls and also with more *)
Definition prints (l : list frame) (b : bytes) (e : reading) : Prop := exists n, forall m, (n <= m)%nat -> print_loop m (Conn None l) [] = (b, Some e).

(* ---- Output ---- *)
Lemma print_message l p : forall b m, (length p < m)%nat -> print_loop m (Conn (Some p) l) b = (b ++ concat p, Some Eof).
Proof.
  induction p as [|x p IH]; intros b m H; (destruct m as [|m]; [cbn in H; lia|]); cbn.
  - rewrite app_nil_r. reflexivity.
  - rewrite IH by (cbn in H; lia). rewrite <- app_assoc. reflexivity.
Qed.
(* Exactly the first message is printed, and then the output seems to have ended; without messages it ends when the connection does *)
Theorem printed_exactly : forall l, match first_message l with
  | Some b => prints l b Eof
  | None => prints l [] Error
  end.
Proof.
  intros l.
  assert (N : match next_reader l with (Some p, _) => first_message l = Some (concat p) | (None, _) => first_message l = None end).
  { induction l as [|[|p] t IH]; cbn; auto. }
  destruct (next_reader l) as [[p|] t] eqn:E; rewrite N.
  - exists (S (length p)). intros [|m] H; [lia|]. cbn [print_loop]. unfold read. cbn [c_r c_frames]. rewrite E. destruct p as [|b p].
    + reflexivity.
    + rewrite print_message by (cbn in H; lia). reflexivity.
  - exists 1%nat. intros [|m] H; [lia|]. cbn [print_loop]. unfold read. cbn [c_r c_frames]. rewrite E. reflexivity.
Qed.
Print Assumptions printed_exactly.
(* Whatever is printed is the beginning of the instance's output *)
Theorem printed_prefix l b e : prints l b e -> exists rest, output l = b ++ rest.
Proof.
  intros [n P]. pose proof (printed_exactly l) as X.
  assert (F : match first_message l with Some x => exists rest, output l = x ++ rest | None => True end).
  { clear. induction l as [|[|p] t IH]; cbn; auto. exists (output t). reflexivity. }
  destruct (first_message l) as [x|]; destruct X as [n' X]; specialize (P (max n n') ltac:(lia)); specialize (X (max n n') ltac:(lia)); rewrite X in P.
  - injection P as <- _. exact F.
  - injection P as <- _. exists (output l). reflexivity.
Qed.
Print Assumptions printed_prefix.
(* "All output of the instance is shown" *)
Theorem all_output_shown_refuted : exists l b e, prints l b e /\ output l <> b.
Proof.
  exists [Binary [[97%Z]]; Binary [[98%Z]]], [97%Z], Eof. split; [|discriminate].
  exact (printed_exactly [Binary [[97%Z]]; Binary [[98%Z]]]).
Qed.
Print Assumptions all_output_shown_refuted.
(* It is shown if it comes as one message, and over pipes *)
Theorem single_message_shown texts p texts' : Forall (eq Text) texts -> Forall (eq Text) texts' ->
  prints (texts ++ Binary p :: texts') (output (texts ++ Binary p :: texts')) Eof.
Proof.
  intros H H'.
  assert (T : output texts' = []) by (induction H' as [|f t <- _ IH]; cbn; auto).
  assert (F : first_message (texts ++ Binary p :: texts') = Some (concat p) /\ output (texts ++ Binary p :: texts') = concat p).
  { induction H as [|f t <- _ IH]; cbn.
    - split; [reflexivity|]. change (concat p ++ output texts' = concat p). rewrite T. apply app_nil_r.
    - exact IH. }
  destruct F as [F1 F2]. pose proof (printed_exactly (texts ++ Binary p :: texts')) as X. rewrite F1 in X. rewrite F2. exact X.
Qed.
Print Assumptions single_message_shown.

(* ---- Input ---- *)
Definition messages (lines : list bytes) : list bytes := greeting :: map (fun l => l ++ [10%Z]) lines.
Lemma typing_spec ok lines : forall i outbuf,
  let all := outbuf :: map (fun l => l ++ [10%Z]) lines in
  (exists k, k <= length all /\ sent (typing ok i outbuf lines) = firstn k all /\ (forall j, j < k -> ok (i + j) = true) /\ (k < length all -> ok (i + k) = false)) /\
  last (typing ok i outbuf lines) Exit1 = (if forallb ok (seq i (length all)) then WaitOutput else Exit1) /\ typing ok i outbuf lines <> [].
Proof.
  induction lines as [|l t IH]; intros i outbuf all; cbn [typing].
  - subst all. cbn [map length]. destruct (ok i) eqn:E; cbn; rewrite ?E; cbn; split.
    + exists 1. cbn. repeat split; auto; try lia. intros j H. replace (i + j) with i by lia. auto.
    + split; [reflexivity|discriminate].
    + exists 0. cbn. repeat split; auto; try lia. intros _. rewrite Nat.add_0_r. auto.
    + split; [reflexivity|discriminate].
  - destruct (IH (S i) (l ++ [10%Z])) as ((k & K0 & K1 & K2 & K3) & L & N). destruct (ok i) eqn:E.
    + split; [|split].
      * exists (S k). subst all. cbn [map length] in *. split; [lia|]. split.
        -- cbn [sent flat_map app firstn]. f_equal. exact K1.
        -- split.
           ++ intros [|j] H; [rewrite Nat.add_0_r; auto|]. rewrite Nat.add_succ_r. apply K2. lia.
           ++ intros H. rewrite Nat.add_succ_r. apply K3. lia.
      * subst all. cbn [map length seq forallb] in *. rewrite E. cbn [andb]. rewrite <- L.
        destruct (typing ok (S i) (l ++ [10%Z]) t); [congruence|reflexivity].
      * discriminate.
    + split; [|split].
      * exists 0. cbn. split; [lia|]. split; [reflexivity|]. split; [lia|]. intros _. rewrite Nat.add_0_r. auto.
      * subst all. cbn. rewrite E. reflexivity.
      * discriminate.
Qed.
(* The instance gets the greeting and then each line that was typed, whole, in its own message, in order; up to the first failure *)
Theorem lines_sent : forall ok lines ended, exists k,
  sent (session ok lines ended) = firstn k (messages lines) /\ (forall j, j < k -> ok j = true) /\ (k <= length (messages lines)) /\
  (k < length (messages lines) -> ok k = false /\ last (session ok lines ended) WaitOutput = Exit1).
Proof.
  intros ok lines ended. destruct (typing_spec ok lines 0 greeting) as ((k & K0 & K1 & K2 & K3) & L & N).
  change (greeting :: map (fun l => l ++ [10%Z]) lines) with (messages lines) in *. cbn [Nat.add] in K2, K3.
  exists k. assert (L' : forall d, last (typing ok 0 greeting lines) d = last (typing ok 0 greeting lines) Exit1).
  { intros d. destruct (typing ok 0 greeting lines) as [|e l]; [congruence|]. clear. revert e. induction l as [|x l IH]; intros e; [reflexivity|]. apply (IH x). }
  assert (S1 : sent (session ok lines ended) = sent (typing ok 0 greeting lines)).
  { assert (A : forall a e, (forall b, e <> Sent b) -> sent (a ++ [e]) = sent a).
    { intros a e He. unfold sent. induction a as [|x a IHa]; cbn; [destruct e; try reflexivity; exfalso; eapply He; reflexivity|rewrite IHa; reflexivity]. }
    unfold session. cbv zeta. destruct (last (typing ok 0 greeting lines) WaitOutput); try reflexivity. destruct ended as [[]|]; [apply A; discriminate..|reflexivity]. }
  split; [rewrite S1; exact K1|]. split; [exact K2|]. split; [exact K0|]. intros H. specialize (K3 H). split; [exact K3|].
  assert (F : forallb ok (seq 0 (length (messages lines))) = false).
  { destruct (forallb _ _) eqn:F; auto. rewrite forallb_forall in F. assert (X : In k (seq 0 (length (messages lines)))) by (apply in_seq; lia). apply F in X. congruence. }
  assert (L2 : last (typing ok 0 greeting lines) Exit1 = if forallb ok (seq 0 (length (messages lines))) then WaitOutput else Exit1) by exact L.
  rewrite F in L2. unfold session. cbv zeta. rewrite L', L2. rewrite L', L2. reflexivity.
Qed.
Print Assumptions lines_sent.
(* "The instance's input ends when the user ends it": not until its output does *)
Theorem input_ends_refuted : exists lines, forall ok, ~ In CloseInput (session ok lines None).
Proof.
  exists []. intros ok. unfold session. cbn. destruct (ok 0); cbn; intuition discriminate.
Qed.
Print Assumptions input_ends_refuted.
Theorem input_ends ok lines ended : In CloseInput (session ok lines ended) <-> (forall j, j <= length lines -> ok j = true) /\ ended = Some true.
Proof.
  destruct (typing_spec ok lines 0 greeting) as (_ & L & N). cbn [length map] in L.
  assert (L' : last (typing ok 0 greeting lines) WaitOutput = last (typing ok 0 greeting lines) Exit1).
  { destruct (typing ok 0 greeting lines) as [|e l]; [congruence|]. clear. revert e. induction l as [|x l IH]; intros e; [reflexivity|]. apply (IH x). }
  assert (T : ~ In CloseInput (typing ok 0 greeting lines)).
  { clear. generalize 0 greeting. induction lines as [|l t IH]; intros i o H; cbn in H; destruct (ok i); cbn in H; try (intuition discriminate).
    destruct H as [H|H]; [discriminate|]. exact (IH _ _ H). }
  assert (F : forallb ok (seq 0 (S (length (map (fun l => l ++ [10%Z]) lines)))) = true <-> forall j, j <= length lines -> ok j = true).
  { unfold bytes in *. rewrite map_length, forallb_forall. split; intros H j Hj; apply H; [apply in_seq; lia|apply in_seq in Hj; lia]. }
  unfold session. rewrite L', L. destruct (forallb ok _).
  - destruct ended as [[]|]; [|split; [intros H|intros [_ H]; discriminate]..]; [split; [intros _; split; [apply F; reflexivity|reflexivity]|intros _; apply in_app_iff; right; left; reflexivity]|..].
    + apply in_app_iff in H. destruct H as [H|[H|[]]]; [contradiction|discriminate].
    + contradiction.
  - split; [intros H; contradiction|]. intros [H _]. apply F in H. discriminate.
Qed.
Print Assumptions input_ends.

(* ---- Examples ---- *)
Example shown : print_loop 5 (Conn None [Text; Binary [[1%Z]; [2%Z]]; Binary [[3%Z]]]) [] = ([1; 2]%Z, Some Eof).
Proof. reflexivity. Qed.
Example typed : session (fun i => negb (i =? 2)) [[97%Z]; [98%Z]] None = [Sent greeting; Sent [97; 10]%Z; Exit1].
Proof. reflexivity. Qed.
Example closed : session (fun _ => true) [[97%Z]] (Some true) = [Sent greeting; Sent [97; 10]%Z; WaitOutput; CloseInput].
Proof. reflexivity. Qed.
