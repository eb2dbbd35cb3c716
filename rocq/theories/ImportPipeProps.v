(* ImportPipeProps.v: modules handed over through a pipe arrive, and the command ends (C137). *)
From Verif Require Import ImportPipe.
From Coq Require Import Lia.

(* No event is possible, the collector's included or not. *)
Definition stuck (cap : nat) (closes : bool) (s : pipe) : Prop := forall e, e <> Collect -> step cap closes e s = None.
Definition dead (cap : nat) (closes : bool) (s : pipe) : Prop := forall e, step cap closes e s = None.

Record Inv (size : nat) (s : pipe) : Prop := {
  i_sum : left s + held s + got s = size;
  i_ended : ended s = true -> left s = 0;
  i_open : open s = false -> ended s = true;
  i_eof : eof s = true -> open s = false /\ held s = 0;
  i_reply : replied s = true -> eof s = true }.
Definition steps_left (s : pipe) : nat :=
  2 * left s + held s + (if ended s then 0 else 1) + (if open s then 1 else 0) + (if eof s then 0 else 1) + (if replied s then 0 else 1).

Ltac bools := repeat match goal with
  | H : (_ && _)%bool = true |- _ => apply andb_true_iff in H as [? ?]
  | H : (_ <=? _) = true |- _ => apply Nat.leb_le in H
  | H : (_ =? _) = true |- _ => apply Nat.eqb_eq in H
  | H : negb _ = true |- _ => apply negb_true_iff in H
  end.
Lemma step_inv cap cl e size s s' : Inv size s -> step cap cl e s = Some s' -> Inv size s' /\ steps_left s' < steps_left s.
Proof.
  intros [A B C D E] H. destruct s as [l h g en op ef rp]. unfold steps_left. cbn [left held got ended open eof replied] in *.
  destruct op, ef, en, rp;
    repeat match goal with X : ?x = ?x -> _ |- _ => specialize (X eq_refl) | X : _ /\ _ |- _ => destruct X end; try discriminate;
    destruct e; cbn [step left held got ended open eof replied] in H; rewrite ?andb_false_r in H; cbn [negb andb] in H; rewrite ?andb_false_r in H; try discriminate;
    try (match type of H with (if ?c then _ else _) = _ => destruct c eqn:K; [|discriminate] end); injection H as <-; bools; destruct cl;
    cbn [negb andb left held got ended open eof replied]; (split; [constructor; cbn [left held got ended open eof replied]; intros; try discriminate; try split; lia || congruence || reflexivity | lia]).
Qed.
Lemma run_inv cap cl l : forall size s s', Inv size s -> run cap cl l s = Some s' -> Inv size s' /\ length l + steps_left s' <= steps_left s.
Proof.
  induction l as [|e l IH]; intros size s s' I H; cbn [run length] in *.
  - injection H as <-. split; [exact I|lia].
  - destruct (step cap cl e s) as [s1|] eqn:S; [|discriminate]. destruct (step_inv _ _ _ _ _ _ I S) as [I1 L1]. destruct (IH _ _ _ I1 H) as [I2 L2]. split; [exact I2|lia].
Qed.
Lemma start_inv size : Inv size (start size).
Proof. constructor; cbn; intros; try discriminate; lia. Qed.
Lemma run_app cap cl a : forall b s, run cap cl (a ++ b) s = match run cap cl a s with Some s' => run cap cl b s' | None => None end.
Proof. induction a as [|e a IH]; intros b s; cbn [run app]; [reflexivity|]. destruct (step cap cl e s); [apply IH | reflexivity]. Qed.

(* Whatever happens, the reply is to the whole module, and what has been read is never more. *)
Theorem reply_after_everything : forall cap closes size l s, run cap closes l (start size) = Some s -> got s <= size /\ (replied s = true -> got s = size).
Proof.
  intros cap cl size l s R. destruct (run_inv _ _ _ _ _ _ (start_inv size) R) as [[A B C D E] _]. split; [lia|]. intros X.
  destruct (D (E X)) as [O H]. specialize (B (C O)). lia.
Qed.

(* The pipe never holds more than it can. *)
Theorem pipe_bounded : forall cap closes size l s, run cap closes l (start size) = Some s -> held s <= cap.
Proof.
  intros cap cl size l s. assert (G : forall l s0, held s0 <= cap -> run cap cl l s0 = Some s -> held s <= cap).
  { clear. induction l as [|e l IH]; intros s0 H R; cbn [run] in R; [injection R as <-; exact H|].
    destruct (step cap cl e s0) as [s1|] eqn:E; [|discriminate]. apply (IH s1); [|exact R]. destruct s0 as [l0 h g en op ef rp]. cbn [held] in H.
    destruct e; cbn [step left held got ended open eof replied] in E; match type of E with (if ?c then _ else _) = _ => destruct c eqn:K; [|discriminate] end; injection E as <-; bools; cbn [held]; lia. }
  apply G. cbn. lia.
Qed.
Print Assumptions pipe_bounded.

(* Progress *)
Lemma progress cap cl size s : 1 <= cap -> Inv size s -> replied s = false -> (cl = true \/ open s = false \/ ended s = false) ->
  (ended s = true -> cl = true -> open s = false) -> exists e s', e <> Collect /\ step cap cl e s = Some s'.
Proof.
  intros P [A B C D E] N OK G. destruct s as [l h g en op ef rp]. cbn [left held got ended open eof replied] in *. subst rp.
  destruct ef. { exists Reply. eexists. split; [discriminate|]. reflexivity. }
  destruct h as [|h].
  - destruct op.
    + destruct en.
      * destruct OK as [->|[X|X]]; try discriminate. discriminate (G eq_refl eq_refl).
      * destruct l as [|l].
        -- exists End. eexists. split; [discriminate|]. reflexivity.
        -- exists (Write 1). eexists. split; [discriminate|]. destruct cap; [lia|]. reflexivity.
    + exists ReadEnd. eexists. split; [discriminate|]. reflexivity.
  - exists (Read 1). eexists. split; [discriminate|]. reflexivity.
Qed.
Lemma closes_closes cap l : forall s s', (ended s = true -> open s = false) -> run cap true l s = Some s' -> ended s' = true -> open s' = false.
Proof.
  induction l as [|e l IH]; intros s s' G R; cbn [run] in R; [injection R as <-; exact G|].
  destruct (step cap true e s) as [s1|] eqn:S; [|discriminate]. apply (IH s1 s'); [|exact R]. destruct s as [l0 h g en op ef rp]. cbn [ended open] in G.
  destruct e; cbn [step left held got ended open eof replied] in S; match type of S with (if ?c then _ else _) = _ => destruct c eqn:K; [|discriminate] end; injection S as <-; cbn [ended open]; auto.
  intros _. apply andb_false_r.
Qed.

(* Pull: whatever the schedule, no more than this many events happen, and when no more can happen, the whole module has been read and the command ends.
   The collector isn't needed. *)
Theorem pull_ends : forall cap size l s, 1 <= cap -> run cap true l (start size) = Some s ->
  length l <= 2 * size + 4 /\ (stuck cap true s -> replied s = true /\ got s = size).
Proof.
  intros cap size l s P R. destruct (run_inv _ _ _ _ _ _ (start_inv size) R) as [I L]. split.
  - unfold steps_left in L at 2. cbn in L. lia.
  - intros S. destruct (replied s) eqn:E.
    + split; [reflexivity|]. now apply (reply_after_everything _ _ _ _ _ R).
    + exfalso. assert (G : ended s = true -> open s = false) by (apply (closes_closes cap l (start size)); [discriminate|exact R]).
      destruct (progress cap true size s P I E (or_introl eq_refl) (fun x _ => G x)) as [e [s' [N X]]]. rewrite (S e N) in X. discriminate.
Qed.

(* Import from a pipe or a device: the command never ends by itself: without a collection there is no reply, and every schedule ends with everything
   read, the goroutine ended, and both the daemon and the client waiting. *)
Lemma import_open cap l : forall s s', ~ In Collect l -> open s = true -> run cap false l s = Some s' -> open s' = true.
Proof.
  induction l as [|e l IH]; intros s s' N O R; cbn [run] in R; [injection R as <-; exact O|].
  destruct (step cap false e s) as [s1|] eqn:S; [|discriminate]. apply (IH s1 s'); [intros X; apply N; now right | | exact R].
  destruct s as [l0 h g en op ef rp]. cbn [open] in O. subst op.
  destruct e; cbn [step left held got ended open eof replied] in S; match type of S with (if ?c then _ else _) = _ => destruct c eqn:K; [|discriminate] end; try (injection S as <-; reflexivity).
  - destruct N. now left.
  - rewrite andb_false_r in K. discriminate.
Qed.
Theorem import_ends_refuted : forall cap size l s, 1 <= cap -> ~ In Collect l -> run cap false l (start size) = Some s ->
  replied s = false /\ eof s = false /\ length l <= 2 * size + 4 /\ (stuck cap false s -> got s = size /\ ended s = true /\ open s = true).
Proof.
  intros cap size l s P N R. destruct (run_inv _ _ _ _ _ _ (start_inv size) R) as [I L]. pose proof (import_open cap l (start size) s N eq_refl R) as O.
  assert (E : eof s = false). { destruct (eof s) eqn:E; [|reflexivity]. destruct (i_eof _ _ I E). congruence. }
  assert (Q : replied s = false). { destruct (replied s) eqn:Q; [|reflexivity]. rewrite (i_reply _ _ I Q) in E. discriminate. }
  split; [exact Q|split; [exact E|split]].
  - unfold steps_left in L at 2. cbn in L. lia.
  - intros S. destruct (ended s) eqn:D.
    + pose proof (i_sum _ _ I) as A. rewrite (i_ended _ _ I D) in A. split; [|auto].
      destruct (held s) eqn:H; [lia|]. exfalso. specialize (S (Read 1) ltac:(discriminate)). cbn [step] in S. rewrite H, E in S. discriminate.
    + exfalso. destruct (progress cap false size s P I Q (or_intror (or_intror D)) ltac:(discriminate)) as [e [s' [X Y]]]. rewrite (S e X) in Y. discriminate.
Qed.
(* It does end if the collector closes the unreachable file. *)
Theorem import_ends_partial : forall cap size l s, 1 <= cap -> run cap false l (start size) = Some s -> dead cap false s -> replied s = true /\ got s = size.
Proof.
  intros cap size l s P R S. destruct (run_inv _ _ _ _ _ _ (start_inv size) R) as [I _]. destruct (replied s) eqn:E.
  - split; [reflexivity|]. now apply (reply_after_everything _ _ _ _ _ R).
  - exfalso. destruct (open s) eqn:O; [destruct (ended s) eqn:D|].
    + specialize (S Collect). cbn [step] in S. rewrite D, O in S. discriminate.
    + destruct (progress cap false size s P I E (or_intror (or_intror D)) ltac:(discriminate)) as [e [s' [_ X]]]. rewrite S in X. discriminate.
    + destruct (progress cap false size s P I E (or_intror (or_introl O)) ltac:(discriminate)) as [e [s' [_ X]]]. rewrite S in X. discriminate.
Qed.
(* A regular file ends whatever pieces it is read in. *)
Theorem import_file_ends : forall pieces size s, readFile pieces size = Some s -> length pieces <= size /\ (s <> 0 -> exists s', readFile (pieces ++ [1]) size = Some s').
Proof.
  induction pieces as [|n t IH]; intros size s H; cbn [readFile length app] in *.
  - injection H as <-. split; [lia|]. intros N. destruct size; [lia|]. eexists. reflexivity.
  - destruct ((1 <=? n) && (n <=? size))%bool eqn:E; [|discriminate]. bools. destruct (IH _ _ H) as [A B]. split; [lia|exact B].
Qed.
Print Assumptions reply_after_everything.
Print Assumptions pull_ends.
Print Assumptions import_ends_refuted.
Print Assumptions import_ends_partial.
Print Assumptions import_file_ends.

(* Non-vacuity: a module larger than the pipe *)
Example pull_run : option_map (fun s => (got s, replied s)) (run 2 true [Write 2; Read 1; Write 1; End; Read 2; ReadEnd; Reply] (start 3)) = Some (3, true).
Proof. reflexivity. Qed.
Example import_stuck : exists s, run 2 false [Write 2; Read 1; Write 1; End; Read 2] (start 3) = Some s /\ stuck 2 false s /\ got s = 3 /\ replied s = false.
Proof.
  eexists. split; [reflexivity|]. split; [|split; reflexivity]. intros [n| | |n| |] N; try reflexivity; try (destruct (N eq_refl)).
  - cbn [step left]. destruct n; reflexivity.
  - cbn [step held]. destruct n; reflexivity.
Qed.
Example import_collected : option_map replied (run 2 false [Write 2; Read 1; Write 1; End; Read 2; Collect; ReadEnd; Reply] (start 3)) = Some true.
Proof. reflexivity. Qed.
