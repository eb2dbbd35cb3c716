(* ExecutorProps.v: C34: process control requests and process ids. *)
From Verif Require Import Base ListLemmas Executor.
From Coq Require Import PeanoNat.

(* ---- specification ---- *)
(* The process still has its id: nobody has asked it to be killed, suspended or finalized,
   or the one who did has not given the id back. *)
Definition holds (p : proc) : Prop := ctl p = Live \/ act p <> Nobody.
(* Nothing is under way, and no process exists, with the id. *)
Definition msg_id (m : msg) : nat := match m with MCreate id _ => id | MOp _ id _ => id end.
Definition quiet (s : exec) (id : nat) : Prop :=
  pmap s id = None /\ table s id = None /\ (forall m, In m (wire s) -> msg_id m <> id) /\
  (forall o k h, In (o, k, h) (killq s) -> k <> id) /\ (forall k h, In (k, h) (swire s) -> k <> id).
(* Every id drawn during the history is quiet at that time. *)
Definition quiet_draws (s : exec) (es : list event) : Prop :=
  forall es1 es2 s1 id rest, es = es1 ++ EDraw :: es2 -> run s es1 = Some s1 -> pool s1 = id :: rest -> quiet s1 id.

(* ---- lists ---- *)
Lemma set_len l h p : (h < length l)%nat -> length (set_proc l h p) = length l.
Proof. intros I. unfold set_proc. rewrite app_length, firstn_length_le by lia. cbn [length]. rewrite skipn_length. lia. Qed.
Lemma nth_skipn_err {A} (l : list A) n i : nth_error (skipn n l) i = nth_error l (n + i).
Proof. revert l. induction n as [|n IH]; intros [|x l]; cbn; auto. now destruct i. Qed.
Lemma nth_set l h p k : (h < length l)%nat -> nth_error (set_proc l h p) k = if Nat.eqb k h then Some p else nth_error l k.
Proof.
  intros I. unfold set_proc. destruct (Nat.eqb_spec k h) as [->|NE].
  - rewrite nth_error_app2; rewrite firstn_length_le by lia; [|lia]. now rewrite Nat.sub_diag.
  - destruct (Nat.ltb_spec k h).
    + rewrite nth_error_app1 by (rewrite firstn_length_le; lia). rewrite <- (firstn_skipn h l) at 2. rewrite nth_error_app1 by (rewrite firstn_length_le; lia). reflexivity.
    + rewrite nth_error_app2 by (rewrite firstn_length_le; lia). rewrite firstn_length_le by lia.
      destruct (k - h)%nat as [|j] eqn:K; [lia|]. cbn [nth_error]. rewrite nth_skipn_err. f_equal. lia.
Qed.
Lemma nth_lt {A} (l : list A) h p : nth_error l h = Some p -> (h < length l)%nat.
Proof. intros H. apply nth_error_Some. congruence. Qed.
Lemma nth_snoc {A} (l : list A) x k : nth_error (l ++ [x]) k = if Nat.eqb k (length l) then Some x else nth_error l k.
Proof.
  destruct (Nat.eqb_spec k (length l)) as [->|NE]; [rewrite nth_error_app2, Nat.sub_diag by lia; reflexivity|].
  destruct (Nat.ltb_spec k (length l)); [now rewrite nth_error_app1|]. rewrite nth_error_app2 by lia.
  destruct (k - length l)%nat as [|j] eqn:K; [lia|]. cbn. destruct j; symmetry; apply nth_error_None; lia.
Qed.

Lemma NoDup_snoc {A} (l : list A) x : NoDup l -> ~ In x l -> NoDup (l ++ [x]).
Proof.
  induction l as [|y l IH]; cbn; intros D N; [constructor; [tauto|constructor]|]. inversion D; subst. constructor; [|apply IH; tauto].
  rewrite in_app_iff. cbn. intros [K|[K|[]]]; [contradiction|]. subst. tauto.
Qed.

(* ---- ids ---- *)
Record inv_ids (n : nat) (s : exec) : Prop := {
  i_nodup : NoDup (pool s);
  i_range : forall id, In id (pool s) -> (id < n)%nat;
  i_prange : forall h p, nth_error (procs s) h = Some p -> (pid p < n)%nat;
  i_free : forall h p, nth_error (procs s) h = Some p -> holds p -> ~ In (pid p) (pool s);
  i_last : forall h p h' p', nth_error (procs s) h = Some p -> holds p -> nth_error (procs s) h' = Some p' -> (h < h')%nat -> pid p' <> pid p;
  i_all : down s = false -> forall id, (id < n)%nat -> In id (pool s) \/ exists h p, nth_error (procs s) h = Some p /\ holds p /\ pid p = id;
  i_live : forall h p, nth_error (procs s) h = Some p -> stg p <> Created -> ctl p = Live /\ act p = Nobody;
  i_own : forall h p, nth_error (procs s) h = Some p -> ctl p = Live -> act p = Nobody
}.

Lemma inv_ids0 n : inv_ids n (exec0 n).
Proof.
  split; cbn; try (intros [|h]; discriminate).
  - apply seq_NoDup.
  - intros id I. apply in_seq in I. lia.
  - intros _ id I. left. apply in_seq. lia.
Qed.

(* A change of one process which keeps its id. *)
Lemma ids_set n s h p q pl' : inv_ids n s -> nth_error (procs s) h = Some p -> pid q = pid p ->
  (stg q <> Created -> ctl q = Live /\ act q = Nobody) -> (ctl q = Live -> act q = Nobody) ->
  (pl' = pool s /\ (holds q -> holds p) /\ (down s = false -> holds p -> holds q) \/ pl' = pool s ++ [pid p] /\ holds p /\ ~ holds q) ->
  forall s', procs s' = set_proc (procs s) h q -> pool s' = pl' -> (down s' = false -> down s = false) -> inv_ids n s'.
Proof.
  intros I N E L1 L2 C s' P' Q' D'. pose proof (nth_lt _ _ _ N) as HL.
  assert (NS : forall k x, nth_error (procs s') k = Some x -> (k = h /\ x = q) \/ (k <> h /\ nth_error (procs s) k = Some x)).
  { intros k x. rewrite P', nth_set by exact HL. destruct (Nat.eqb_spec k h); [intros X; left; split; congruence|intros X; right; auto]. }
  assert (SN : forall k x, nth_error (procs s) k = Some x -> k <> h -> nth_error (procs s') k = Some x).
  { intros k x X NE. rewrite P', nth_set by exact HL. now destruct (Nat.eqb_spec k h). }
  assert (SH : nth_error (procs s') h = Some q).
  { rewrite P', nth_set by exact HL. now rewrite Nat.eqb_refl. }
  assert (HH : holds q -> holds p) by (destruct C as [(_ & C & _)|(_ & C & _)]; auto).
  assert (X : forall h1 p1, nth_error (procs s) h1 = Some p1 -> holds p1 -> holds p -> h1 <> h -> pid p1 <> pid p).
  { intros h1 p1 N1 H1 H2 NE EQ. destruct (Nat.lt_ge_cases h1 h).
    - exact (i_last n s I h1 p1 h p N1 H1 N ltac:(lia) (eq_sym EQ)).
    - exact (i_last n s I h p h1 p1 N H2 N1 ltac:(lia) EQ). }
  split.
  - rewrite Q'. destruct C as [(-> & _ & _)|(-> & C1 & C2)]; [apply (i_nodup n s I)|]. apply NoDup_snoc; [apply (i_nodup n s I)|]. exact (i_free n s I h p N C1).
  - intros id J. rewrite Q' in J. destruct C as [(-> & _ & _)|(-> & C1 & C2)]; [exact (i_range n s I id J)|]. apply in_app_or in J. destruct J as [J|[<-|[]]]; [exact (i_range n s I id J)|exact (i_prange n s I h p N)].
  - intros k x K. destruct (NS k x K) as [[-> ->]|[_ K']]; [rewrite E; exact (i_prange n s I h p N)|exact (i_prange n s I k x K')].
  - intros k x K H J. rewrite Q' in J. destruct (NS k x K) as [[-> ->]|[NE K']].
    + rewrite E in J. destruct C as [(-> & C1 & _)|(-> & C1 & C2)]; [|tauto]. exact (i_free n s I h p N (HH H) J).
    + destruct C as [(-> & C1 & _)|(-> & C1 & C2)]; [exact (i_free n s I k x K' H J)|]. apply in_app_or in J. destruct J as [J|[J|[]]]; [exact (i_free n s I k x K' H J)|]. exact (X k x K' H C1 NE (eq_sym J)).
  - intros k x k' x' K H K' LT. destruct (NS k x K) as [[-> ->]|[NE K1]], (NS k' x' K') as [[-> ->]|[NE' K2]]; try lia.
    + rewrite E. exact (i_last n s I h p k' x' N (HH H) K2 LT).
    + rewrite E. exact (i_last n s I k x h p K1 H N LT).
    + exact (i_last n s I k x k' x' K1 H K2 LT).
  - intros D id R. destruct (i_all n s I (D' D) id R) as [J|(k & x & K & H & EI)].
    + left. rewrite Q'. destruct C as [(-> & _ & _)|(-> & _ & _)]; [exact J|apply in_or_app; now left].
    + destruct (Nat.eq_dec k h) as [->|NE].
      * assert (x = p) by congruence. subst x. destruct C as [(-> & _ & C)|(-> & _ & _)].
        { right. exists h, q. split; [exact SH|]. split; [exact (C (D' D) H)|congruence]. }
        { left. rewrite Q'. apply in_or_app. right. now left. }
      * right. exists k, x. split; [exact (SN k x K NE)|auto].
  - intros k x K. destruct (NS k x K) as [[-> ->]|[_ K']]; [exact L1|exact (i_live n s I k x K')].
  - intros k x K. destruct (NS k x K) as [[-> ->]|[_ K']]; [exact L2|exact (i_own n s I k x K')].
Qed.
(* A step which touches neither ids nor processes. *)
Lemma ids_same n s s' : inv_ids n s -> procs s' = procs s -> pool s' = pool s -> (down s' = false -> down s = false) -> inv_ids n s'.
Proof.
  intros [A1 A2 A3 A4 A5 A6 A7 A8] P Q D. split; rewrite ?P, ?Q; auto.
Qed.
Lemma holds_live id g : holds (Proc id Live Nobody g). Proof. now left. Qed.
Lemma holds_not id c g : c <> Live -> ~ holds (Proc id c Nobody g). Proof. intros N [H|H]; cbn in *; congruence. Qed.

Ltac some H := injection H as H; subst.
Lemma control_inv s h w o s' : control s h w o = Some s' -> exists id c a, nth_error (procs s) h = Some (Proc id c a Created) /\
  (c <> Live /\ s' = s \/ c = Live /\ s' = Exec (pool s) (set_proc (procs s) h (Proc id w (Queueing o) Created)) (killq s) (wire s) (table s) (swire s) (pmap s)
                     (signals s) (delivered s) (died s) (panicked s) (down s)).
Proof.
  unfold control. destruct (nth_error (procs s) h) as [[id c a []]|]; try discriminate. intros H.
  exists id, c, a. split; [reflexivity|]. destruct c; injection H as <-; [right|left|left|left]; split; congruence.
Qed.
Lemma ids_control n s h w o s' : inv_ids n s -> w <> Live -> control s h w o = Some s' -> inv_ids n s'.
Proof.
  intros I W H. destruct (control_inv _ _ _ _ _ H) as (id & c & a & N & [[_ ->]|[-> ->]]); [exact I|].
  eapply (ids_set n s h _ (Proc id w (Queueing o) Created)); [exact I|exact N|reflexivity| | | |reflexivity|reflexivity|cbn; auto]; cbn [stg ctl act pid]; try congruence.
  left. split; [reflexivity|]. split; [intros _; apply (or_introl eq_refl)|]. intros _ _. right. cbn. congruence.
Qed.
Lemma step_ids n s e s' : inv_ids n s -> step s e = Some s' -> inv_ids n s'.
Proof.
  intros I H. unfold step in H. destruct (panicked s) eqn:PA; [discriminate|].
  destruct e as [|h|h|h|h|h|h|h|h|h| | |id| |].
  - destruct (pool s) as [|id rest] eqn:PO; [discriminate|]. injection H as <-.
    assert (NI : ~ In id rest /\ NoDup rest) by (pose proof (i_nodup n s I) as Y; rewrite PO in Y; now inversion Y).
    assert (NS : forall k x, nth_error (procs s ++ [Proc id Live Nobody Drawn]) k = Some x -> (k = length (procs s) /\ x = Proc id Live Nobody Drawn) \/ ((k < length (procs s))%nat /\ nth_error (procs s) k = Some x)).
    { intros k x K. rewrite nth_snoc in K. destruct (Nat.eqb_spec k (length (procs s))); [left; split; congruence|right]. split; [|exact K]. exact (nth_lt _ _ _ K). }
    assert (FR : forall k x, nth_error (procs s) k = Some x -> holds x -> pid x <> id /\ ~ In (pid x) rest).
    { intros k x K X. pose proof (i_free n s I k x K X) as F. rewrite PO in F. cbn in F. split; [intros EQ; apply F; left; congruence|tauto]. }
    split; cbn [pool procs down].
    + tauto.
    + intros i J. apply (i_range n s I). rewrite PO. now right.
    + intros k x K. destruct (NS k x K) as [[-> ->]|[_ K']]; [apply (i_range n s I); rewrite PO; now left|exact (i_prange n s I k x K')].
    + intros k x K X. destruct (NS k x K) as [[-> ->]|[_ K']]; [cbn; tauto|exact (proj2 (FR k x K' X))].
    + intros k x k' x' K X K' LT. destruct (NS k x K) as [[-> ->]|[L1 K1]], (NS k' x' K') as [[-> ->]|[L2 K2]]; try lia.
      * cbn. intros EQ. exact (proj1 (FR k x K1 X) (eq_sym EQ)).
      * exact (i_last n s I k x k' x' K1 X K2 LT).
    + intros D i R. destruct (i_all n s I D i R) as [J|(k & x & K & X & E)].
      * rewrite PO in J. destruct J as [<-|J]; [|now left]. right. exists (length (procs s)), (Proc id Live Nobody Drawn). split; [|split; [apply holds_live|reflexivity]]. rewrite nth_snoc. now rewrite Nat.eqb_refl.
      * right. exists k, x. split; [|tauto]. rewrite nth_snoc. pose proof (nth_lt _ _ _ K). destruct (Nat.eqb_spec k (length (procs s))); [lia|exact K].
    + intros k x K. destruct (NS k x K) as [[-> ->]|[_ K']]; [cbn; auto|exact (i_live n s I k x K')].
    + intros k x K. destruct (NS k x K) as [[-> ->]|[_ K']]; [cbn; auto|exact (i_own n s I k x K')].
  - destruct (nth_error (procs s) h) as [[id c a []]|] eqn:N; try discriminate. destruct (down s) eqn:D; [discriminate|]. injection H as <-.
    destruct (i_live n s I h _ N) as [L1 L2]; [discriminate|]. cbn in L1, L2. subst c a.
    eapply (ids_set n s h _ (Proc id Live Nobody Created)); [exact I|exact N|reflexivity| | | |reflexivity|reflexivity|cbn; auto]; cbn; auto.
  - destruct (nth_error (procs s) h) as [[id c a []]|] eqn:N; try discriminate. injection H as <-.
    destruct (i_live n s I h _ N) as [L1 L2]; [discriminate|]. cbn in L1, L2. subst c a.
    eapply (ids_set n s h _ (Proc id Live Nobody Cancelled)); [exact I|exact N|reflexivity| | | |reflexivity|reflexivity|cbn; auto]; cbn; auto.
  - exact (ids_control n s h Killed Kill s' I ltac:(discriminate) H).
  - exact (ids_control n s h Suspended Suspend s' I ltac:(discriminate) H).
  - exact (ids_control n s h Finalized Kill s' I ltac:(discriminate) H).
  - destruct (nth_error (procs s) h) as [[id c [|o|] g]|] eqn:N; try discriminate. destruct (Nat.ltb _ _); [|discriminate]. injection H as <-.
    pose proof (i_own n s I h _ N) as O. pose proof (i_live n s I h _ N) as L. cbn in O, L.
    eapply (ids_set n s h _ (Proc id c Returning g)); [exact I|exact N|reflexivity| | | |reflexivity|reflexivity|cbn; auto]; cbn [stg ctl act pid].
    + intros G. destruct (L G). discriminate.
    + intros G. discriminate (O G).
    + left. split; [reflexivity|]. split; intros _; [right; discriminate|]. intros _. right. discriminate.
  - destruct (nth_error (procs s) h) as [[id c [|o|] g]|] eqn:N; try discriminate. injection H as <-.
    pose proof (i_own n s I h _ N) as O. pose proof (i_live n s I h _ N) as L. cbn in O, L.
    eapply (ids_set n s h _ (Proc id c Nobody g)); [exact I|exact N|reflexivity| | | |reflexivity|reflexivity|cbn; auto]; cbn [stg ctl act pid]; auto.
    + intros G. destruct (L G). discriminate.
    + right. split; [reflexivity|]. split; [right; discriminate|]. apply holds_not. intros G. discriminate (O G).
  - destruct (nth_error (procs s) h) as [[id c a g]|] eqn:N; [|discriminate]. destruct c; try discriminate. destruct a as [|o|]; try discriminate. destruct (existsb _ _); [|discriminate]. injection H as <-.
    pose proof (i_live n s I h _ N) as L. cbn in L.
    eapply (ids_set n s h _ (Proc id Finalized Nobody g)); [exact I|exact N|reflexivity| | | |reflexivity|reflexivity|cbn; auto]; cbn [stg ctl act pid]; auto.
    + intros G. destruct (L G). discriminate.
    + right. split; [reflexivity|]. split; [right; discriminate|]. apply holds_not. discriminate.
  - destruct (nth_error (procs s) h) as [[id c [|o|] g]|] eqn:N; try discriminate. destruct (down s) eqn:D; [|discriminate]. injection H as <-.
    pose proof (i_own n s I h _ N) as O. pose proof (i_live n s I h _ N) as L. cbn in O, L.
    eapply (ids_set n s h _ (Proc id c Nobody g)); [exact I|exact N|reflexivity| | | |reflexivity|reflexivity|cbn; congruence]; cbn [stg ctl act pid]; auto.
    + intros G. destruct (L G). discriminate.
    + left. split; [reflexivity|]. split; [intros _; right; discriminate|congruence].
  - destruct (killq s) as [|[[o id] h] t]; [discriminate|]. destruct (down s) eqn:D; [discriminate|]. injection H as <-. now apply (ids_same n s).
  - destruct (died s); [discriminate|]. destruct (wire s) as [|[id h|o id h] t]; [discriminate| |].
    + destruct (table s id); injection H as <-; now apply (ids_same n s).
    + injection H as <-; now apply (ids_same n s).
  - destruct (died s); [discriminate|]. destruct (table s id); [|discriminate]. injection H as <-; now apply (ids_same n s).
  - destruct (swire s) as [|[id h] t]; [discriminate|]. destruct (pmap s id); injection H as <-; now apply (ids_same n s).
  - injection H as <-. apply (ids_same n s); cbn; auto; discriminate.
Qed.
Lemma run_ids n es : forall s s', inv_ids n s -> run s es = Some s' -> inv_ids n s'.
Proof.
  induction es as [|e t IH]; cbn; intros s s' I H; [now inversion H; subst|]. destruct (step s e) as [s1|] eqn:S; [|discriminate]. apply (IH s1); [|exact H]. now apply (step_ids n s e).
Qed.

(* No two processes have the same id at the same time, and an id which a process has is
   not available; while the sender runs, every id is available or some process has it. *)
Theorem exec_ids_distinct : forall n es s, run (exec0 n) es = Some s ->
  (forall h1 h2 p1 p2, nth_error (procs s) h1 = Some p1 -> nth_error (procs s) h2 = Some p2 -> holds p1 -> holds p2 -> h1 <> h2 -> pid p1 <> pid p2) /\
  NoDup (pool s) /\
  (forall h p, nth_error (procs s) h = Some p -> holds p -> ~ In (pid p) (pool s)) /\
  (forall id, In id (pool s) -> (id < n)%nat) /\
  (down s = false -> forall id, (id < n)%nat -> In id (pool s) \/ exists h p, nth_error (procs s) h = Some p /\ holds p /\ pid p = id).
Proof.
  intros n es s R. pose proof (run_ids n es _ _ (inv_ids0 n) R) as I.
  split; [|split; [exact (i_nodup n s I)|split; [exact (i_free n s I)|split; [exact (i_range n s I)|exact (i_all n s I)]]]].
  intros h1 h2 p1 p2 N1 N2 H1 H2 NE EQ. destruct (Nat.lt_ge_cases h1 h2).
  - exact (i_last n s I h1 p1 h2 p2 N1 H1 N2 ltac:(lia) (eq_sym EQ)).
  - exact (i_last n s I h2 p2 h1 p1 N2 H2 N1 ltac:(lia) EQ).
Qed.
Print Assumptions exec_ids_distinct.

(* ---- histories in which ids are quiet when drawn ---- *)
Definition is_last (l : list proc) (id h : nat) : Prop :=
  (exists p, nth_error l h = Some p /\ pid p = id) /\ forall h' p', nth_error l h' = Some p' -> (h < h')%nat -> pid p' <> id.
Definition is_create (id : nat) (m : msg) : bool := match m with MCreate k _ => Nat.eqb k id | _ => false end.
Definition is_status (id : nat) (x : nat * nat) : bool := Nat.eqb (fst x) id.
Definition cnt (s : exec) (id : nat) : nat :=
  (length (filter (is_create id) (wire s)) + (match table s id with Some _ => 1 | None => 0 end) + length (filter (is_status id) (swire s)))%nat.
Record inv_q (s : exec) : Prop := {
  q_pmap : forall id, match pmap s id with None => cnt s id = 0%nat | Some h => cnt s id = 1%nat /\ is_last (procs s) id h end;
  q_create : forall id h, In (MCreate id h) (wire s) -> is_last (procs s) id h;
  q_op : forall o id h, In (MOp o id h) (wire s) -> is_last (procs s) id h;
  q_kill : forall o id h, In (o, id, h) (killq s) -> is_last (procs s) id h;
  q_table : forall id h, table s id = Some h -> is_last (procs s) id h;
  q_status : forall id h, In (id, h) (swire s) -> is_last (procs s) id h;
  q_drawn : forall h p, nth_error (procs s) h = Some p -> stg p = Drawn -> pmap s (pid p) = None;
  q_died : died s = false;
  q_panic : panicked s = false;
  q_sig : forall o r t, In (o, r, t) (signals s) -> r = t;
  q_del : forall h x, In (h, x) (delivered s) -> h = x
}.
Lemma is_last_fun l id h h' : is_last l id h -> is_last l id h' -> h = h'.
Proof.
  intros [(p & N & E) L] [(p' & N' & E') L']. destruct (Nat.lt_trichotomy h h') as [T|[T|T]]; [|exact T|]; exfalso; [exact (L h' p' N' T E')|exact (L' h p N T E)].
Qed.
Lemma inv_q0 n : inv_q (exec0 n).
Proof. split; cbn; try tauto; try discriminate; try (intros [|h]; discriminate). Qed.
Lemma is_last_set l h p q id k : nth_error l h = Some p -> pid q = pid p -> is_last l id k -> is_last (set_proc l h q) id k.
Proof.
  intros N E [(x & NX & EX) L]. pose proof (nth_lt _ _ _ N) as HL. split.
  - rewrite nth_set by exact HL. destruct (Nat.eqb_spec k h); [exists q; split; [reflexivity|]; congruence|exists x; auto].
  - intros h' p' N' LT. rewrite nth_set in N' by exact HL. destruct (Nat.eqb_spec h' h) as [->|NE].
    + assert (p' = q) by congruence. subst p'. rewrite E. exact (L h p N LT).
    + exact (L h' p' N' LT).
Qed.
Lemma is_last_snoc l x id k : is_last l id k -> pid x <> id -> is_last (l ++ [x]) id k.
Proof.
  intros [(p & NP & EP) L] NE. pose proof (nth_lt _ _ _ NP) as KL. split.
  - exists p. split; [|exact EP]. rewrite nth_snoc. destruct (Nat.eqb_spec k (length l)); [lia|exact NP].
  - intros h' p' N' LT. rewrite nth_snoc in N'. destruct (Nat.eqb_spec h' (length l)); [congruence|]. exact (L h' p' N' LT).
Qed.
Lemma filter_nil_in {A} (f : A -> bool) l : length (filter f l) = 0%nat -> forall x, In x l -> f x = false.
Proof. intros H x I. destruct (f x) eqn:F; [|reflexivity]. assert (In x (filter f l)) by (apply filter_In; auto). destruct (filter f l); [contradiction|discriminate]. Qed.
Lemma no_filter {A} (f : A -> bool) l : (forall x, In x l -> f x = false) -> length (filter f l) = 0%nat.
Proof. intros H. induction l as [|x l IH]; [reflexivity|]. cbn. rewrite (H x) by now left. apply IH. intros y Y. apply H. now right. Qed.
(* The same, but for processes (with the same ids, none newly drawn). *)
Lemma q_set s h p q s' : inv_q s -> nth_error (procs s) h = Some p -> pid q = pid p -> (stg q = Drawn -> stg p = Drawn) ->
  procs s' = set_proc (procs s) h q -> wire s' = wire s -> table s' = table s -> swire s' = swire s -> pmap s' = pmap s ->
  (forall o id k, In (o, id, k) (killq s') -> In (o, id, k) (killq s) \/ is_last (procs s) id k) ->
  signals s' = signals s -> delivered s' = delivered s -> died s' = died s -> panicked s' = panicked s -> inv_q s'.
Proof.
  intros [A1 A2 A3 A4 A5 A6 A7 A8 A9 A10 A11] N E G P W T SW PM K S D DI PA. pose proof (nth_lt _ _ _ N) as HL.
  split; rewrite ?P, ?W, ?T, ?SW, ?PM, ?S, ?D, ?DI, ?PA; auto; try (intros; eapply is_last_set; eauto; fail).
  - intros id. specialize (A1 id). unfold cnt in *. rewrite W, T, SW. destruct (pmap s id); [|exact A1]. split; [tauto|]. eapply is_last_set; [exact N|exact E|tauto].
  - intros o id k J. eapply is_last_set; [exact N|exact E|]. destruct (K o id k J) as [J'|J']; [eauto|exact J'].
  - intros k x K' G'. rewrite nth_set in K' by exact HL. destruct (Nat.eqb_spec k h) as [->|NE]; [|eauto]. assert (x = q) by congruence. subst x. rewrite E. apply (A7 h p N). auto.
Qed.
Lemma q_same_procs s s' : inv_q s -> procs s' = procs s -> wire s' = wire s -> table s' = table s -> swire s' = swire s -> pmap s' = pmap s ->
  killq s' = killq s -> signals s' = signals s -> delivered s' = delivered s -> died s' = died s -> panicked s' = panicked s -> inv_q s'.
Proof.
  intros [A1 A2 A3 A4 A5 A6 A7 A8 A9 A10 A11] P W T SW PM K S D DI PA. split; rewrite ?P, ?W, ?T, ?SW, ?PM, ?K, ?S, ?D, ?DI, ?PA; auto.
  intros id. specialize (A1 id). unfold cnt in *. now rewrite W, T, SW.
Qed.
Lemma holder_last n s h p : inv_ids n s -> nth_error (procs s) h = Some p -> holds p -> is_last (procs s) (pid p) h.
Proof. intros I N H. split; [exists p; auto|]. intros h' p' N' LT. exact (i_last n s I h p h' p' N H N' LT). Qed.
Lemma q_control s h w o s' : inv_q s -> control s h w o = Some s' -> inv_q s'.
Proof.
  intros I H. destruct (control_inv _ _ _ _ _ H) as (id & c & a & N & [[_ ->]|[-> ->]]); [exact I|].
  eapply (q_set s h _ (Proc id w (Queueing o) Created)); [exact I|exact N|reflexivity|discriminate|..]; cbn; auto.
Qed.
Lemma step_q n s e s' : inv_ids n s -> inv_q s -> (e = EDraw -> forall id rest, pool s = id :: rest -> quiet s id) -> step s e = Some s' -> inv_q s'.
Proof.
  intros II I QQ H. unfold step in H. destruct (panicked s) eqn:PA; [discriminate|].
  destruct e as [|h|h|h|h|h|h|h|h|h| | |id| |].
  - destruct (pool s) as [|id rest] eqn:PO; [discriminate|]. injection H as <-. destruct (QQ eq_refl id rest eq_refl) as (Q1 & Q2 & Q3 & Q4 & Q5).
    destruct I as [A1 A2 A3 A4 A5 A6 A7 A8 A9 A10 A11]. split; cbn [procs wire killq table swire pmap signals delivered died panicked]; auto.
    + intros k. specialize (A1 k). unfold cnt in *. cbn [wire table swire]. destruct (pmap s k) eqn:PM; [|exact A1]. split; [tauto|]. apply is_last_snoc; [tauto|]. cbn. congruence.
    + intros k h J. apply is_last_snoc; [eauto|]. cbn. exact (not_eq_sym (Q3 _ J)).
    + intros o k h J. apply is_last_snoc; [eauto|]. cbn. exact (not_eq_sym (Q3 _ J)).
    + intros o k h J. apply is_last_snoc; [eauto|]. cbn. exact (not_eq_sym (Q4 _ _ _ J)).
    + intros k h J. apply is_last_snoc; [eauto|]. cbn. congruence.
    + intros k h J. apply is_last_snoc; [eauto|]. cbn. exact (not_eq_sym (Q5 _ _ J)).
    + intros k x K G. rewrite nth_snoc in K. destruct (Nat.eqb_spec k (length (procs s))); [|eauto]. assert (x = Proc id Live Nobody Drawn) by congruence. subst x. exact Q1.
  - destruct (nth_error (procs s) h) as [[id c a []]|] eqn:N; try discriminate. destruct (down s) eqn:D; [discriminate|]. injection H as <-.
    assert (HL : is_last (procs s) id h). { apply (holder_last n s h _ II N). left. apply (i_live n s II h _ N). discriminate. }
    pose proof (nth_lt _ _ _ N) as LT. pose proof (q_drawn s I h _ N eq_refl) as PN. cbn in PN. pose proof (q_pmap s I id) as CN. rewrite PN in CN.
    assert (SL : forall k j, is_last (procs s) k j -> is_last (set_proc (procs s) h (Proc id c a Created)) k j) by (intros k j; now apply (is_last_set _ _ _ _ _ _ N)).
    destruct I as [A1 A2 A3 A4 A5 A6 A7 A8 A9 A10 A11]. split; cbn [procs wire killq table swire pmap signals delivered died panicked]; auto; try (intros; apply SL; eauto; fail).
    + intros k. specialize (A1 k). unfold cnt, upd in *. cbn [wire table swire]. rewrite filter_app, app_length. cbn [filter is_create]. rewrite (Nat.eqb_sym id k). destruct (Nat.eqb_spec k id) as [->|NE].
      * split; [|now apply SL]. cbn [length]. lia.
      * cbn [length]. rewrite Nat.add_0_r. destruct (pmap s k); [split; [tauto|]; apply SL; tauto|exact A1].
    + intros k j J. apply SL. apply in_app_or in J. destruct J as [J|[J|[]]]; [eauto|]. injection J as <- <-. exact HL.
    + intros o k j J. apply SL. apply in_app_or in J. destruct J as [J|[J|[]]]; [eauto|discriminate].
    + intros k x K G. rewrite nth_set in K by exact LT. destruct (Nat.eqb_spec k h); [assert (x = Proc id c a Created) by congruence; subst x; discriminate|].
      unfold upd. destruct (Nat.eqb_spec (pid x) id) as [EQ|NE]; [exfalso|eauto].
      assert (HX : is_last (procs s) (pid x) k). { apply (holder_last n s k _ II K). left. apply (i_live n s II k _ K). congruence. }
      rewrite EQ in HX. pose proof (is_last_fun _ _ _ _ HX HL). contradiction.
  - destruct (nth_error (procs s) h) as [[id c a []]|] eqn:N; try discriminate. injection H as <-.
    eapply (q_set s h _ (Proc id c a Cancelled)); [exact I|exact N|reflexivity|discriminate|..]; cbn; auto.
  - exact (q_control s h Killed Kill s' I H).
  - exact (q_control s h Suspended Suspend s' I H).
  - exact (q_control s h Finalized Kill s' I H).
  - destruct (nth_error (procs s) h) as [[id c [|o|] g]|] eqn:N; try discriminate. destruct (Nat.ltb _ _); [|discriminate]. injection H as <-.
    eapply (q_set s h _ (Proc id c Returning g)); [exact I|exact N|reflexivity|cbn; auto|..]; cbn; auto.
    intros o' k j J. apply in_app_or in J. destruct J as [J|[J|[]]]; [now left|right]. injection J as <- <- <-. apply (holder_last n s h _ II N). right. discriminate.
  - destruct (nth_error (procs s) h) as [[id c [|o|] g]|] eqn:N; try discriminate. injection H as <-.
    eapply (q_set s h _ (Proc id c Nobody g)); [exact I|exact N|reflexivity|cbn; auto|..]; cbn; auto.
  - destruct (nth_error (procs s) h) as [[id c a g]|] eqn:N; [|discriminate]. destruct c; try discriminate. destruct a as [|o|]; try discriminate. destruct (existsb _ _); [|discriminate]. injection H as <-.
    eapply (q_set s h _ (Proc id Finalized Nobody g)); [exact I|exact N|reflexivity|cbn; auto|..]; cbn; auto.
  - destruct (nth_error (procs s) h) as [[id c [|o|] g]|] eqn:N; try discriminate. destruct (down s) eqn:D; [|discriminate]. injection H as <-.
    eapply (q_set s h _ (Proc id c Nobody g)); [exact I|exact N|reflexivity|cbn; auto|..]; cbn; auto.
  - destruct (killq s) as [|[[o id] h] t] eqn:K; [discriminate|]. destruct (down s) eqn:D; [discriminate|]. injection H as <-.
    destruct I as [A1 A2 A3 A4 A5 A6 A7 A8 A9 A10 A11]. rewrite K in A4. split; cbn [procs wire killq table swire pmap signals delivered died panicked]; auto.
    + intros k. specialize (A1 k). unfold cnt in *. cbn [wire table swire]. rewrite filter_app, app_length. cbn [filter is_create length]. now rewrite Nat.add_0_r.
    + intros k j J. apply in_app_or in J. destruct J as [J|[J|[]]]; [eauto|discriminate].
    + intros o' k j J. apply in_app_or in J. destruct J as [J|[J|[]]]; [eauto|]. injection J as <- <- <-. apply (A4 o). now left.
    + intros o' k j J. apply (A4 o'). now right.
  - destruct (died s) eqn:DI; [discriminate|]. destruct (wire s) as [|[id h|o id h] t] eqn:WI; [discriminate| |].
    + pose proof (q_pmap s I id) as CN. unfold cnt in CN. rewrite WI in CN. cbn [filter is_create] in CN. rewrite Nat.eqb_refl in CN. cbn [length] in CN.
      assert (TN : table s id = None). { destruct (table s id); [|reflexivity]. destruct (pmap s id); lia. }
      rewrite TN in H, CN. injection H as <-. destruct I as [A1 A2 A3 A4 A5 A6 A7 A8 A9 A10 A11]. rewrite WI in A2, A3.
      split; cbn [procs wire killq table swire pmap signals delivered died panicked]; auto.
      * intros k. specialize (A1 k). unfold cnt, upd in *. cbn [wire table swire]. rewrite WI in A1. cbn [filter is_create] in A1. rewrite (Nat.eqb_sym id k) in A1. destruct (Nat.eqb_spec k id) as [->|NE]; [|exact A1].
        rewrite TN in A1. cbn [length] in A1. destruct (pmap s id); [split; [lia|tauto]|lia].
      * intros k j J. apply A2. now right.
      * intros o k j J. apply (A3 o). now right.
      * intros k j. unfold upd. destruct (Nat.eqb_spec k id) as [->|NE]; [|apply A5]. intros J. injection J as <-. apply A2. now left.
    + injection H as <-. destruct I as [A1 A2 A3 A4 A5 A6 A7 A8 A9 A10 A11]. rewrite WI in A2, A3.
      split; cbn [procs wire killq table swire pmap signals delivered died panicked]; auto.
      * intros k. specialize (A1 k). unfold cnt in *. cbn [wire table swire]. rewrite WI in A1. cbn [filter is_create] in A1. exact A1.
      * intros k j J. apply A2. now right.
      * intros o' k j J. apply (A3 o'). now right.
      * intros o' r t'. destruct (table s id) as [x|] eqn:TX; [|apply A10]. intros J. apply in_app_or in J. destruct J as [J|[J|[]]]; [eauto|]. injection J as <- <- <-.
        apply (is_last_fun (procs s) id); [|now apply A5]. apply (A3 o). now left.
  - destruct (died s) eqn:DI; [discriminate|]. destruct (table s id) as [h|] eqn:TX; [|discriminate]. injection H as <-.
    destruct I as [A1 A2 A3 A4 A5 A6 A7 A8 A9 A10 A11]. split; cbn [procs wire killq table swire pmap signals delivered died panicked]; auto.
    + intros k. specialize (A1 k). unfold cnt, upd in *. cbn [wire table swire]. rewrite filter_app, app_length. cbn [filter]. change (is_status k (id, h)) with (Nat.eqb id k). rewrite (Nat.eqb_sym id k).
      destruct (Nat.eqb_spec k id) as [->|NE]; cbn [length].
      * rewrite TX in A1. destruct (pmap s id); [split; [lia|tauto]|lia].
      * rewrite Nat.add_0_r. exact A1.
    + intros k j. unfold upd. destruct (Nat.eqb_spec k id); [discriminate|apply A5].
    + intros k j J. apply in_app_or in J. destruct J as [J|[J|[]]]; [eauto|]. injection J as <- <-. now apply A5.
  - destruct (swire s) as [|[id h] t] eqn:SW; [discriminate|].
    pose proof (q_pmap s I id) as CN. unfold cnt in CN. rewrite SW in CN. cbn [filter] in CN. change (is_status id (id, h)) with (Nat.eqb id id) in CN. rewrite Nat.eqb_refl in CN. cbn [length] in CN.
    destruct (pmap s id) as [x|] eqn:PM; [|lia]. injection H as <-. destruct CN as [CN LX].
    destruct I as [A1 A2 A3 A4 A5 A6 A7 A8 A9 A10 A11]. rewrite SW in A6. split; cbn [procs wire killq table swire pmap signals delivered died panicked]; auto.
    + intros k. specialize (A1 k). unfold cnt, upd in *. cbn [wire table swire]. rewrite SW in A1. cbn [filter] in A1. change (is_status k (id, h)) with (Nat.eqb id k) in A1. rewrite (Nat.eqb_sym id k) in A1. destruct (Nat.eqb_spec k id) as [->|NE].
      * lia.
      * exact A1.
    + intros k j J. apply A6. now right.
    + intros k y K G. unfold upd. destruct (Nat.eqb_spec (pid y) id); [reflexivity|eauto].
    + intros k y J. apply in_app_or in J. destruct J as [J|[J|[]]]; [eauto|]. injection J as <- <-. apply (is_last_fun (procs s) id); [|exact LX]. apply A6. now left.
  - injection H as <-. apply (q_same_procs s); auto.
Qed.
Lemma run_q n es : forall s s', inv_ids n s -> inv_q s -> quiet_draws s es -> run s es = Some s' -> inv_q s'.
Proof.
  induction es as [|e t IH]; cbn; intros s s' II I Q H; [now inversion H; subst|]. destruct (step s e) as [s1|] eqn:S; [|discriminate].
  apply (IH s1); [now apply (step_ids n s e)| | |exact H].
  - apply (step_q n s e s1 II I); [|exact S]. intros -> id rest P. exact (Q [] t s id rest eq_refl eq_refl P).
  - intros es1 es2 s2 id rest E R P. apply (Q (e :: es1) es2 s2 id rest); [cbn; now rewrite E| |exact P]. cbn. now rewrite S.
Qed.

(* Whenever ids are drawn only while quiet, the executor does not die and the receiver
   does not panic; operations reach only the processes they were meant for; and each
   process is told of its own death only. *)
Theorem exec_quiet_safe_partial : forall n es s, quiet_draws (exec0 n) es -> run (exec0 n) es = Some s ->
  died s = false /\ panicked s = false /\
  (forall o r t, In (o, r, t) (signals s) -> r = t) /\ (forall h x, In (h, x) (delivered s) -> h = x).
Proof.
  intros n es s Q R. pose proof (run_q n es _ _ (inv_ids0 n) (inv_q0 n) Q R) as I.
  split; [exact (q_died s I)|]. split; [exact (q_panic s I)|]. split; [exact (q_sig s I)|exact (q_del s I)].
Qed.
Print Assumptions exec_quiet_safe_partial.

(* ---- the first processes ---- *)
Definition is_draw (e : event) : bool := match e with EDraw => true | _ => false end.
Record inv_d (n : nat) (s : exec) : Prop := {
  d_len : (length (procs s) <= n)%nat;
  d_pool : exists r, pool s = seq (length (procs s)) (n - length (procs s)) ++ r;
  d_pid : forall h p, nth_error (procs s) h = Some p -> (pid p < length (procs s))%nat;
  d_wire : forall m, In m (wire s) -> (msg_id m < length (procs s))%nat;
  d_kill : forall o id h, In (o, id, h) (killq s) -> (id < length (procs s))%nat;
  d_swire : forall id h, In (id, h) (swire s) -> (id < length (procs s))%nat;
  d_table : forall id h, table s id = Some h -> (id < length (procs s))%nat;
  d_pmap : forall id h, pmap s id = Some h -> (id < length (procs s))%nat
}.
Lemma inv_d0 n : inv_d n (exec0 n).
Proof. split; cbn; try tauto; try discriminate; try lia. - exists []. rewrite app_nil_r. f_equal. lia. - intros [|h]; discriminate. Qed.
Lemma d_set n s h p q s' : inv_d n s -> nth_error (procs s) h = Some p -> pid q = pid p -> procs s' = set_proc (procs s) h q ->
  (exists r, pool s' = pool s ++ r) ->
  (forall m, In m (wire s') -> In m (wire s) \/ msg_id m = pid p) ->
  (forall o id k, In (o, id, k) (killq s') -> In (o, id, k) (killq s) \/ id = pid p) ->
  (forall id k, pmap s' id = Some k -> pmap s id = Some k \/ id = pid p) ->
  swire s' = swire s -> table s' = table s -> inv_d n s'.
Proof.
  intros [A0 A1 A2 A3 A4 A5 A6 A7] N E P (r & PO) W K PM SW T. pose proof (nth_lt _ _ _ N) as HL. pose proof (A2 h p N) as PP.
  split; rewrite ?P, ?(set_len _ _ q HL), ?SW, ?T; auto.
  - destruct A1 as (r1 & A1). exists (r1 ++ r). rewrite PO, A1, app_assoc. reflexivity.
  - intros k x K'. rewrite nth_set in K' by exact HL. destruct (Nat.eqb_spec k h); [|eauto]. assert (x = q) by congruence. subst. lia.
  - intros m J. destruct (W m J) as [J'| ->]; auto.
  - intros o id k J. destruct (K o id k J) as [J'| ->]; eauto.
  - intros id k J. destruct (PM id k J) as [J'| ->]; eauto.
Qed.
Lemma step_d n s e s' : inv_d n s -> (e = EDraw -> (length (procs s) < n)%nat) -> step s e = Some s' -> inv_d n s' /\ length (procs s') = (length (procs s) + if is_draw e then 1 else 0)%nat.
Proof.
  intros I B H. unfold step in H. destruct (panicked s) eqn:PA; [discriminate|].
  assert (SET : forall h p q pl' kl' wi' ta' sw' pm' si' de' di' pa' do', nth_error (procs s) h = Some p -> pid q = pid p ->
     pool s = pool s -> (exists r, pl' = pool s ++ r) ->
     (forall m, In m wi' -> In m (wire s) \/ msg_id m = pid p) ->
     (forall o id k, In (o, id, k) kl' -> In (o, id, k) (killq s) \/ id = pid p) ->
     (forall id k, pm' id = Some k -> pmap s id = Some k \/ id = pid p) ->
     sw' = swire s -> ta' = table s ->
     let s' := Exec pl' (set_proc (procs s) h q) kl' wi' ta' sw' pm' si' de' di' pa' do' in inv_d n s' /\ length (procs s') = (length (procs s) + 0)%nat).
  { intros h p q pl' kl' wi' ta' sw' pm' si' de' di' pa' do' N E _ P W K PM SW T. cbn zeta. split; [|cbn; rewrite set_len by exact (nth_lt _ _ _ N); lia].
    eapply (d_set n s h p q); [exact I|exact N|exact E|reflexivity|exact P|exact W|exact K|exact PM|exact SW|exact T]. }
  assert (CTL : forall h w o, control s h w o = Some s' -> inv_d n s' /\ length (procs s') = (length (procs s) + 0)%nat).
  { intros h w o C. destruct (control_inv _ _ _ _ _ C) as (id & c & a & N & [[_ ->]|[-> ->]]); [split; [exact I|lia]|].
    eapply SET; [exact N|reflexivity|reflexivity|exists []; now rewrite app_nil_r|auto|auto|auto|reflexivity|reflexivity]. }
  destruct e as [|h|h|h|h|h|h|h|h|h| | |id| |]; cbn [is_draw].
  - specialize (B eq_refl). destruct (pool s) as [|id rest] eqn:PO; [discriminate|]. injection H as <-.
    destruct I as [A0 (r & A1) A2 A3 A4 A5 A6 A7]. rewrite PO in A1.
    replace (n - length (procs s))%nat with (S (n - length (procs s) - 1)) in A1 by lia. cbn [seq app] in A1. injection A1 as -> A1.
    split; [|cbn; rewrite app_length; cbn; lia].
    split; cbn [pool procs wire killq swire table pmap]; rewrite ?app_length; cbn [length].
    + lia.
    + exists r. rewrite A1. f_equal. replace (length (procs s) + 1)%nat with (S (length (procs s))) by lia. f_equal. lia.
    + intros h p K. rewrite nth_snoc in K. destruct (Nat.eqb_spec h (length (procs s))).
      * assert (p = Proc (length (procs s)) Live Nobody Drawn) by congruence. subst p. cbn. lia.
      * specialize (A2 h p K). lia.
    + intros m J. specialize (A3 m J). lia.
    + intros o id h J. specialize (A4 o id h J). lia.
    + intros id h J. specialize (A5 id h J). lia.
    + intros id h J. specialize (A6 id h J). lia.
    + intros id h J. specialize (A7 id h J). lia.
  - destruct (nth_error (procs s) h) as [[id c a []]|] eqn:N; try discriminate. destruct (down s) eqn:D; [discriminate|]. injection H as <-.
    eapply SET; [exact N|reflexivity|reflexivity|exists []; now rewrite app_nil_r| |auto| |reflexivity|reflexivity].
    + intros m J. apply in_app_or in J. destruct J as [J|[<-|[]]]; auto.
    + intros k j. unfold upd. destruct (Nat.eqb_spec k id); auto.
  - destruct (nth_error (procs s) h) as [[id c a []]|] eqn:N; try discriminate. injection H as <-.
    eapply SET; [exact N|reflexivity|reflexivity|exists []; now rewrite app_nil_r|auto|auto|auto|reflexivity|reflexivity].
  - eapply CTL; exact H.
  - eapply CTL; exact H.
  - eapply CTL; exact H.
  - destruct (nth_error (procs s) h) as [[id c [|o|] g]|] eqn:N; try discriminate. destruct (Nat.ltb _ _); [|discriminate]. injection H as <-.
    eapply SET; [exact N|reflexivity|reflexivity|exists []; now rewrite app_nil_r|auto| |auto|reflexivity|reflexivity].
    intros o' k j J. apply in_app_or in J. destruct J as [J|[J|[]]]; [now left|right]. injection J as <- <- <-. reflexivity.
  - destruct (nth_error (procs s) h) as [[id c [|o|] g]|] eqn:N; try discriminate. injection H as <-.
    eapply SET; [exact N|reflexivity|reflexivity|exists [id]; reflexivity|auto|auto|auto|reflexivity|reflexivity].
  - destruct (nth_error (procs s) h) as [[id c a g]|] eqn:N; [|discriminate]. destruct c; try discriminate. destruct a as [|o|]; try discriminate. destruct (existsb _ _); [|discriminate]. injection H as <-.
    eapply SET; [exact N|reflexivity|reflexivity|exists [id]; reflexivity|auto|auto|auto|reflexivity|reflexivity].
  - destruct (nth_error (procs s) h) as [[id c [|o|] g]|] eqn:N; try discriminate. destruct (down s) eqn:D; [|discriminate]. injection H as <-.
    eapply SET; [exact N|reflexivity|reflexivity|exists []; now rewrite app_nil_r|auto|auto|auto|reflexivity|reflexivity].
  - destruct (killq s) as [|[[o id] h] t] eqn:K; [discriminate|]. destruct (down s) eqn:D; [discriminate|]. injection H as <-. split; [|cbn; lia].
    destruct I as [A0 A1 A2 A3 A4 A5 A6 A7]. rewrite K in A4. split; cbn [pool procs wire killq swire table pmap]; auto.
    + intros m J. apply in_app_or in J. destruct J as [J|[<-|[]]]; [auto|]. apply (A4 o id h). now left.
    + intros o' k j J. apply (A4 o' k j). now right.
  - destruct (died s) eqn:DI; [discriminate|]. destruct (wire s) as [|m t] eqn:WI; [discriminate|].
    destruct I as [A0 A1 A2 A3 A4 A5 A6 A7]. rewrite WI in A3. destruct m as [id h|o id h].
    + destruct (table s id) eqn:TX; injection H as <-; (split; [|cbn; lia]); split; cbn [pool procs wire killq swire table pmap]; auto; try (intros m J; apply A3; now right).
      intros k j. unfold upd. destruct (Nat.eqb_spec k id) as [->|NE]; [|apply A6]. intros _. apply (A3 (MCreate id h)). now left.
    + injection H as <-. split; [|cbn; lia]. split; cbn [pool procs wire killq swire table pmap]; auto. intros m J. apply A3. now right.
  - destruct (died s) eqn:DI; [discriminate|]. destruct (table s id) as [h|] eqn:TX; [|discriminate]. injection H as <-. split; [|cbn; lia].
    destruct I as [A0 A1 A2 A3 A4 A5 A6 A7]. split; cbn [pool procs wire killq swire table pmap]; auto.
    + intros k j J. apply in_app_or in J. destruct J as [J|[J|[]]]; [eauto|]. injection J as <- <-. eauto.
    + intros k j. unfold upd. destruct (Nat.eqb_spec k id); [discriminate|apply A6].
  - destruct (swire s) as [|[id h] t] eqn:SW; [discriminate|]. destruct I as [A0 A1 A2 A3 A4 A5 A6 A7]. rewrite SW in A5.
    destruct (pmap s id) as [x|] eqn:PM; injection H as <-; (split; [|cbn; lia]); split; cbn [pool procs wire killq swire table pmap]; auto; try (intros k j J; apply (A5 k j); now right).
    intros k j. unfold upd. destruct (Nat.eqb_spec k id); [discriminate|apply A7].
  - injection H as <-. split; [|cbn; lia]. destruct I as [A0 A1 A2 A3 A4 A5 A6 A7]. split; auto.
Qed.
Lemma quiet_few n es : forall s, inv_d n s -> (length (procs s) + length (filter is_draw es) <= n)%nat -> quiet_draws s es.
Proof.
  induction es as [|e t IH]; intros s I L es1 es2 s1 id rest E R P.
  - destruct es1; discriminate.
  - destruct es1 as [|e1 es1]; cbn [app] in E; injection E as -> E.
    + cbn in R. assert (s1 = s) by congruence. subst s1. cbn [filter is_draw length] in L.
      destruct I as [A0 (r & A1) A2 A3 A4 A5 A6 A7]. rewrite P in A1. replace (n - length (procs s))%nat with (S (n - length (procs s) - 1)) in A1 by lia.
      cbn [seq app] in A1. injection A1 as -> _. split; [|split; [|split; [|split]]].
      * destruct (pmap s (length (procs s))) eqn:X; [specialize (A7 _ _ X); lia|reflexivity].
      * destruct (table s (length (procs s))) eqn:X; [specialize (A6 _ _ X); lia|reflexivity].
      * intros m J. specialize (A3 m J). lia.
      * intros o k h J. specialize (A4 o k h J). lia.
      * intros k h J. specialize (A5 k h J). lia.
    + cbn [run] in R. destruct (step s e1) as [s2|] eqn:S; [|discriminate].
      assert (LL : forall b : bool, filter is_draw (e1 :: t) = (if is_draw e1 then [e1] else []) ++ filter is_draw t) by (intros _; cbn; now destruct (is_draw e1)).
      rewrite (LL true), app_length in L.
      destruct (step_d n s e1 s2 I) as [I2 L2]; [intros ->; cbn in L; lia|exact S|].
      apply (IH s2 I2) with (es1 := es1) (es2 := es2) (rest := rest) (s1 := s1); auto. rewrite L2. destruct (is_draw e1); cbn [length] in L; lia.
Qed.
(* As long as no more processes than the limit have been created in all, no id is reused,
   and all is well, in every interleaving. *)
Theorem exec_first_safe_partial : forall n es s, run (exec0 n) es = Some s -> (length (filter is_draw es) <= n)%nat ->
  died s = false /\ panicked s = false /\
  (forall o r t, In (o, r, t) (signals s) -> r = t) /\ (forall h x, In (h, x) (delivered s) -> h = x).
Proof.
  intros n es s R L. apply (exec_quiet_safe_partial n es s); [|exact R]. apply (quiet_few n es (exec0 n) (inv_d0 n)). cbn. exact L.
Qed.
Print Assumptions exec_first_safe_partial.

(* ---- requests are carried out ---- *)
Record inv_k (s : exec) : Prop := {
  k_order : forall a o id h b, wire s = a ++ MOp o id h :: b -> forall id', ~ In (MCreate id' h) b;
  k_wop : forall o id h, In (MOp o id h) (wire s) -> exists p, nth_error (procs s) h = Some p /\ pid p = id /\ stg p = Created;
  k_qop : forall o id h, In (o, id, h) (killq s) -> exists p, nth_error (procs s) h = Some p /\ pid p = id /\ stg p = Created;
  k_wire : forall id h, In (MCreate id h) (wire s) -> exists p, nth_error (procs s) h = Some p /\ pid p = id /\ stg p = Created;
  k_table : forall id h, table s id = Some h -> exists p, nth_error (procs s) h = Some p /\ pid p = id /\ stg p = Created;
  k_req : forall h p o, nth_error (procs s) h = Some p -> (ctl p = Killed /\ o = Kill \/ ctl p = Suspended /\ o = Suspend) ->
          act p = Queueing o \/ down s = true \/ In (o, pid p, h) (killq s) \/ In (MOp o (pid p) h) (wire s) \/ In (o, h, h) (signals s) \/
          (table s (pid p) <> Some h /\ ~ In (MCreate (pid p) h) (wire s))
}.
Lemma inv_k0 n : inv_k (exec0 n).
Proof. split; cbn; try tauto; try discriminate; try (intros [|h]; discriminate). Qed.
Lemma k_set s h p q s' : inv_k s -> nth_error (procs s) h = Some p -> pid q = pid p -> (stg p = Created -> stg q = Created) ->
  procs s' = set_proc (procs s) h q -> wire s' = wire s -> table s' = table s -> signals s' = signals s -> (down s = true -> down s' = true) ->
  (forall o id k, In (o, id, k) (killq s') -> In (o, id, k) (killq s) \/ k = h /\ id = pid q /\ stg q = Created) ->
  (forall o id k, In (o, id, k) (killq s) -> In (o, id, k) (killq s')) ->
  (forall o, (ctl q = Killed /\ o = Kill \/ ctl q = Suspended /\ o = Suspend) ->
     act q = Queueing o \/ down s' = true \/ In (o, pid p, h) (killq s') \/ In (MOp o (pid p) h) (wire s) \/ In (o, h, h) (signals s) \/
          (table s (pid p) <> Some h /\ ~ In (MCreate (pid p) h) (wire s))) ->
  inv_k s'.
Proof.
  intros [A1 A2 A3 A4 A5 A6] N E G P W T S D K K' R. pose proof (nth_lt _ _ _ N) as HL.
  assert (SP : forall k id, (exists x, nth_error (procs s) k = Some x /\ pid x = id /\ stg x = Created) -> exists x, nth_error (set_proc (procs s) h q) k = Some x /\ pid x = id /\ stg x = Created).
  { intros k id (x & X1 & X2 & X3). rewrite nth_set by exact HL. destruct (Nat.eqb_spec k h) as [->|NE]; [|exists x; auto]. assert (x = p) by congruence. subst x. exists q. repeat split; [congruence|auto]. }
  split; rewrite ?P, ?W, ?T, ?S; auto; try (intros; apply SP; eauto; fail).
  - intros o id k J. destruct (K o id k J) as [J'|(-> & -> & J')]; [apply SP; eauto|]. exists q. rewrite nth_set by exact HL. rewrite Nat.eqb_refl. auto.
  - intros k x o NX RX. rewrite nth_set in NX by exact HL. destruct (Nat.eqb_spec k h) as [->|NE].
    + assert (x = q) by congruence. subst x. rewrite E. exact (R o RX).
    + destruct (A6 k x o NX RX) as [Y|[Y|[Y|[Y|Y]]]]; auto 10.
Qed.
Lemma k_control s h w o s' : inv_k s -> (w = Killed -> o = Kill) -> (w = Suspended -> o = Suspend) -> control s h w o = Some s' -> inv_k s'.
Proof.
  intros I W1 W2 H. destruct (control_inv _ _ _ _ _ H) as (id & c & a & N & [[_ ->]|[-> ->]]); [exact I|].
  eapply (k_set s h _ (Proc id w (Queueing o) Created)); [exact I|exact N|reflexivity|cbn; auto|..]; cbn; auto.
  intros o' [[X Y]|[X Y]]; left; subst; f_equal; auto.
Qed.
Lemma step_k s e s' : inv_k s -> (forall h p, nth_error (procs s) h = Some p -> stg p <> Created -> ctl p = Live /\ act p = Nobody) -> step s e = Some s' -> inv_k s'.
Proof.
  intros I LV H. unfold step in H. destruct (panicked s) eqn:PA; [discriminate|].
  destruct e as [|h|h|h|h|h|h|h|h|h| | |id| |].
  - destruct (pool s) as [|id rest] eqn:PO; [discriminate|]. injection H as <-.
    assert (SP : forall k i, (exists x, nth_error (procs s) k = Some x /\ pid x = i /\ stg x = Created) -> exists x, nth_error (procs s ++ [Proc id Live Nobody Drawn]) k = Some x /\ pid x = i /\ stg x = Created).
    { intros k i (x & X1 & X2 & X3). exists x. split; [|auto]. rewrite nth_snoc. pose proof (nth_lt _ _ _ X1). destruct (Nat.eqb_spec k (length (procs s))); [lia|exact X1]. }
    destruct I as [A1 A2 A3 A4 A5 A6]. split; cbn [procs wire killq table swire pmap signals delivered down]; auto; try (intros; apply SP; eauto; fail).
    intros k x o NX RX. rewrite nth_snoc in NX. destruct (Nat.eqb_spec k (length (procs s))); [|eauto]. assert (x = Proc id Live Nobody Drawn) by congruence. subst x. cbn in RX. destruct RX as [[]|[]]; discriminate.
  - destruct (nth_error (procs s) h) as [[id c a []]|] eqn:N; try discriminate. destruct (down s) eqn:D; [discriminate|]. injection H as <-. pose proof (nth_lt _ _ _ N) as HL.
    destruct (LV h _ N) as [L1 L2]; [discriminate|]. cbn in L1, L2. subst c a.
    assert (SP : forall k i, (exists x, nth_error (procs s) k = Some x /\ pid x = i /\ stg x = Created) -> exists x, nth_error (set_proc (procs s) h (Proc id Live Nobody Created)) k = Some x /\ pid x = i /\ stg x = Created).
    { intros k i (x & X1 & X2 & X3). exists x. split; [|auto]. rewrite nth_set by exact HL. destruct (Nat.eqb_spec k h) as [->|NE]; [|exact X1]. rewrite N in X1. injection X1 as <-. discriminate X3. }
    destruct I as [A1 A2 A3 A4 A5 A6].
    assert (NH : forall o i, ~ In (MOp o i h) (wire s)). { intros o i J. destruct (A2 o i h J) as (x & X1 & _ & X3). rewrite N in X1. injection X1 as <-. discriminate X3. }
    split; cbn [procs wire killq table swire pmap signals delivered down]; auto; try (intros; apply SP; eauto; fail).
    + intros a o i k b E id' J. assert (WE : exists b', b = b' ++ [MCreate id h] /\ wire s = a ++ MOp o i k :: b').
      { destruct (exists_last (l := b)) as (b' & m & ->); [intros ->; contradiction|]. exists b'. change (a ++ MOp o i k :: b' ++ [m]) with (a ++ (MOp o i k :: b') ++ [m]) in E. rewrite app_assoc in E. apply app_inj_tail in E. destruct E as [E1 <-]. auto. }
      destruct WE as (b' & -> & WE). apply in_app_or in J. destruct J as [J|[J|[]]]; [exact (A1 a o i k b' WE id' J)|]. injection J as -> ->. apply (NH o i). rewrite WE. apply in_or_app. right. now left.
    + intros o i k J. apply SP. apply in_app_or in J. destruct J as [J|[J|[]]]; [eauto|discriminate].
    + intros i k J. apply in_app_or in J. destruct J as [J|[J|[]]]; [apply SP; eauto|]. injection J as <- <-. eexists. rewrite nth_set by exact HL. rewrite Nat.eqb_refl. split; [reflexivity|auto].
    + intros k x o NX RX. rewrite nth_set in NX by exact HL. destruct (Nat.eqb_spec k h) as [->|NE].
      * injection NX as <-. cbn in RX. destruct RX as [[]|[]]; discriminate.
      * destruct (A6 k x o NX RX) as [Y|[Y|[Y|[Y|[Y|[Y1 Y2]]]]]]; auto 10; [congruence| |].
        { do 3 right. left. apply in_or_app. now left. }
        { do 5 right. split; [exact Y1|]. rewrite in_app_iff. intros [J|[J|[]]]; [contradiction|]. injection J as _ J. congruence. }
  - destruct (nth_error (procs s) h) as [[id c a []]|] eqn:N; try discriminate. injection H as <-.
    destruct (LV h _ N) as [L1 L2]; [discriminate|]. cbn in L1, L2. subst c a.
    eapply (k_set s h _ (Proc id Live Nobody Cancelled)); [exact I|exact N|reflexivity|cbn; congruence|..]; cbn; auto.
    intros o [[]|[]]; discriminate.
  - exact (k_control s h Killed Kill s' I (fun _ => eq_refl) ltac:(discriminate) H).
  - exact (k_control s h Suspended Suspend s' I ltac:(discriminate) (fun _ => eq_refl) H).
  - exact (k_control s h Finalized Kill s' I ltac:(discriminate) ltac:(discriminate) H).
  - destruct (nth_error (procs s) h) as [[id c [|o|] g]|] eqn:N; try discriminate. destruct (Nat.ltb _ _); [|discriminate]. injection H as <-.
    assert (G : g = Created). { destruct g; [|reflexivity|]; destruct (LV h _ N) as [_ X]; try discriminate X; discriminate. } subst g.
    pose proof (fun o' => k_req s I h _ o' N) as R. cbn [ctl act pid] in R.
    eapply (k_set s h _ (Proc id c Returning Created)); [exact I|exact N|reflexivity|cbn; auto|..]; cbn; auto.
    + intros o' i k J. apply in_app_or in J. destruct J as [J|[J|[]]]; [now left|right]. injection J as <- <- <-. auto.
    + intros o' i k J. apply in_or_app. now left.
    + intros o' X. right. destruct (R o' X) as [Y|[Y|[Y|[Y|Y]]]]; auto 10.
      * injection Y as ->. right. left. apply in_or_app. right. now left.
      * right. left. apply in_or_app. now left.
  - destruct (nth_error (procs s) h) as [[id c [|o|] g]|] eqn:N; try discriminate. injection H as <-.
    pose proof (fun o' => k_req s I h _ o' N) as R. cbn [ctl act pid] in R.
    eapply (k_set s h _ (Proc id c Nobody g)); [exact I|exact N|reflexivity|cbn; auto|..]; cbn; auto.
    intros o' X. right. destruct (R o' X) as [Y|Y]; [discriminate|exact Y].
  - destruct (nth_error (procs s) h) as [[id c a g]|] eqn:N; [|discriminate]. destruct c; try discriminate. destruct a as [|o|]; try discriminate. destruct (existsb _ _); [|discriminate]. injection H as <-.
    eapply (k_set s h _ (Proc id Finalized Nobody g)); [exact I|exact N|reflexivity|cbn; auto|..]; cbn; auto.
    intros o' [[]|[]]; discriminate.
  - destruct (nth_error (procs s) h) as [[id c [|o|] g]|] eqn:N; try discriminate. destruct (down s) eqn:D; [|discriminate]. injection H as <-.
    eapply (k_set s h _ (Proc id c Nobody g)); [exact I|exact N|reflexivity|cbn; auto|..]; cbn; auto.
  - destruct (killq s) as [|[[o id] h] t] eqn:K; [discriminate|]. destruct (down s) eqn:D; [discriminate|]. injection H as <-.
    destruct I as [A1 A2 A3 A4 A5 A6]. rewrite K in A3, A6. split; cbn [procs wire killq table swire pmap signals delivered down]; auto.
    + intros a o' i k b E id' J. destruct (exists_last (l := b)) as (b' & m & ->); [intros ->; contradiction|].
      change (a ++ MOp o' i k :: b' ++ [m]) with (a ++ (MOp o' i k :: b') ++ [m]) in E. rewrite app_assoc in E. apply app_inj_tail in E. destruct E as [E1 <-].
      apply in_app_or in J. destruct J as [J|[J|[]]]; [exact (A1 a o' i k b' E1 id' J)|discriminate].
    + intros o' i k J. apply in_app_or in J. destruct J as [J|[J|[]]]; [eauto|]. injection J as <- <- <-. apply (A3 o). now left.
    + intros o' i k J. apply (A3 o'). now right.
    + intros i k J. apply in_app_or in J. destruct J as [J|[J|[]]]; [eauto|discriminate].
    + intros k x o' NX RX. destruct (A6 k x o' NX RX) as [Y|[Y|[Y|[Y|[Y|[Y1 Y2]]]]]]; auto 10; [congruence| | |].
      * destruct Y as [Y|Y]; [|auto 10]. injection Y as -> -> ->. do 3 right. left. apply in_or_app. right. now left.
      * do 3 right. left. apply in_or_app. now left.
      * do 5 right. split; [exact Y1|]. rewrite in_app_iff. intros [J|[J|[]]]; [contradiction|discriminate].
  - destruct (died s) eqn:DI; [discriminate|]. destruct (wire s) as [|m t] eqn:WI; [discriminate|].
    destruct I as [A1 A2 A3 A4 A5 A6]. rewrite WI in A1, A2, A4, A6.
    assert (A1' : forall a o id h b, t = a ++ MOp o id h :: b -> forall id', ~ In (MCreate id' h) b) by (intros a o id h b E; apply (A1 (m :: a) o id); rewrite E; reflexivity).
    destruct m as [id h|o id h].
    + destruct (table s id) as [y|] eqn:TX; injection H as <-; split; cbn [procs wire killq table swire pmap signals delivered down]; auto;
        try (intros; eapply A2; right; eassumption); try (intros; eapply A4; right; eassumption).
      * intros k x o' NX RX. destruct (A6 k x o' NX RX) as [Y|[Y|[Y|[Y|[Y|[Y1 Y2]]]]]]; auto 10.
        { destruct Y as [Y|Y]; [discriminate|auto]. }
        { do 5 right. split; [exact Y1|]. intros J. apply Y2. now right. }
      * intros k j. unfold upd. destruct (Nat.eqb_spec k id) as [->|NE]; [|apply A5]. intros J. injection J as <-. apply A4. now left.
      * intros k x o' NX RX. destruct (A6 k x o' NX RX) as [Y|[Y|[Y|[Y|[Y|[Y1 Y2]]]]]]; auto 10.
        { destruct Y as [Y|Y]; [discriminate|auto]. }
        { do 5 right. split; [|intros J; apply Y2; now right]. unfold upd. destruct (Nat.eqb_spec (pid x) id) as [EQ|NE]; [|exact Y1]. intros J. injection J as <-. apply Y2. left. now rewrite EQ. }
    + injection H as <-. split; cbn [procs wire killq table swire pmap signals delivered down]; auto;
        try (intros; eapply A2; right; eassumption); try (intros; eapply A4; right; eassumption).
      intros k x o' NX RX.
      assert (SG : forall z, In z (signals s) -> In z (match table s id with Some y => signals s ++ [(o, h, y)] | None => signals s end)) by (intros z J; destruct (table s id); [apply in_or_app; now left|exact J]).
      destruct (A6 k x o' NX RX) as [Y|[Y|[Y|[Y|[Y|[Y1 Y2]]]]]]; auto 10.
      * destruct Y as [Y|Y]; [|auto]. injection Y as -> -> ->. do 4 right. destruct (table s (pid x)) as [y|] eqn:TX.
        { destruct (Nat.eq_dec y k) as [->|NE]; [left; apply in_or_app; right; now left|]. right. split; [congruence|]. exact (A1 [] o' (pid x) k t eq_refl (pid x)). }
        { right. split; [discriminate|]. exact (A1 [] o' (pid x) k t eq_refl (pid x)). }
      * do 5 right. split; [exact Y1|]. intros J. apply Y2. now right.
  - destruct (died s) eqn:DI; [discriminate|]. destruct (table s id) as [h|] eqn:TX; [|discriminate]. injection H as <-.
    destruct I as [A1 A2 A3 A4 A5 A6]. split; cbn [procs wire killq table swire pmap signals delivered down]; auto.
    + intros k j. unfold upd. destruct (Nat.eqb_spec k id); [discriminate|apply A5].
    + intros k x o' NX RX. destruct (A6 k x o' NX RX) as [Y|[Y|[Y|[Y|[Y|[Y1 Y2]]]]]]; auto 10.
      do 5 right. split; [|exact Y2]. unfold upd. destruct (Nat.eqb_spec (pid x) id); [discriminate|exact Y1].
  - destruct (swire s) as [|[id h] t] eqn:SW; [discriminate|]. destruct I as [A1 A2 A3 A4 A5 A6].
    destruct (pmap s id) as [x|] eqn:PM; injection H as <-; split; auto.
  - injection H as <-. destruct I as [A1 A2 A3 A4 A5 A6]. split; cbn [procs wire killq table swire pmap signals delivered down]; auto.
Qed.
Lemma run_k n es : forall s s', inv_ids n s -> inv_k s -> run s es = Some s' -> inv_k s'.
Proof.
  induction es as [|e t IH]; cbn; intros s s' II I H; [now inversion H; subst|]. destruct (step s e) as [s1|] eqn:S; [|discriminate].
  apply (IH s1); [now apply (step_ids n s e)| |exact H]. exact (step_k s e s1 I (i_live n s II) S).
Qed.
(* A request is not lost: unless the sender has ended, a process which exists and whose
   killing or suspending was requested has got the signal, or the request is on its way. *)
Theorem exec_request_reaches : forall n es s h p o, run (exec0 n) es = Some s -> down s = false ->
  nth_error (procs s) h = Some p -> (ctl p = Killed /\ o = Kill \/ ctl p = Suspended /\ o = Suspend) -> table s (pid p) = Some h ->
  act p = Queueing o \/ In (o, pid p, h) (killq s) \/ In (MOp o (pid p) h) (wire s) \/ In (o, h, h) (signals s).
Proof.
  intros n es s h p o R D N RX T. pose proof (run_k n es _ _ (inv_ids0 n) (inv_k0 n) R) as I.
  destruct (k_req s I h p o N RX) as [Y|[Y|[Y|[Y|[Y|[Y1 Y2]]]]]]; auto 10; [congruence|contradiction].
Qed.
Print Assumptions exec_request_reaches.

(* ---- what goes wrong ---- *)
(* n processes are created, one after the other. *)
Definition populate (n : nat) : list event := flat_map (fun h => [EDraw; ECreate h; EExec]) (seq 0 n).
Definition ids_upto (n : nat) : nat -> option nat := fold_left (fun f i => upd f i (Some i)) (seq 0 n) (fun _ => None).
Definition populated (n k : nat) : exec :=
  Exec (seq k (n - k)) (map (fun i => Proc i Live Nobody Created) (seq 0 k)) [] [] (ids_upto k) [] (ids_upto k) [] [] false false false.
Lemma ids_upto_S k : ids_upto (S k) = upd (ids_upto k) k (Some k).
Proof. unfold ids_upto. rewrite seq_S, fold_left_app. reflexivity. Qed.
Lemma ids_upto_spec k i : ids_upto k i = if Nat.ltb i k then Some i else None.
Proof.
  induction k as [|k IH]; [reflexivity|]. rewrite ids_upto_S. unfold upd. destruct (Nat.eqb_spec i k) as [->|NE].
  - destruct (Nat.ltb_spec k (S k)); [reflexivity|lia].
  - rewrite IH. destruct (Nat.ltb_spec i k), (Nat.ltb_spec i (S k)); auto; lia.
Qed.
Lemma run_app es1 es2 : forall s, run s (es1 ++ es2) = match run s es1 with Some s' => run s' es2 | None => None end.
Proof. induction es1 as [|e t IH]; intros s; cbn; [reflexivity|]. destruct (step s e); auto. Qed.
Lemma populate_ok n k : (k <= n)%nat -> run (exec0 n) (populate k) = Some (populated n k).
Proof.
  intros L. induction k as [|k IH].
  - cbn. unfold exec0, populated, ids_upto. cbn. now rewrite Nat.sub_0_r.
  - unfold populate. rewrite seq_S, flat_map_app, run_app. fold (populate k). rewrite IH by lia. cbn [flat_map app].
    assert (LEN : length (map (fun i => Proc i Live Nobody Created) (seq 0 k)) = k) by now rewrite map_length, seq_length.
    unfold populated at 1. replace (n - k)%nat with (S (n - S k)) by lia. cbn [seq run]. cbn [step panicked pool procs killq wire table swire pmap signals delivered died down Nat.add].
    rewrite nth_snoc, LEN, Nat.eqb_refl. cbn [step panicked pool procs killq wire table swire pmap signals delivered died down app].
    rewrite ids_upto_spec. destruct (Nat.ltb_spec k k); [lia|]. cbn [run]. unfold populated. rewrite !ids_upto_S, seq_S, map_app. cbn [map Nat.add]. f_equal. f_equal.
    unfold set_proc. rewrite firstn_app, LEN, Nat.sub_diag. cbn [firstn]. rewrite app_nil_r, firstn_all2 by lia. rewrite skipn_all2 by (rewrite app_length; cbn; lia). reflexivity.
Qed.
Definition killed_first (n : nat) : list proc := Proc 0 Killed Nobody Created :: map (fun i => Proc i Live Nobody Created) (seq 1 n).

(* With any limit on the number of processes: killing a process, and then creating a new
   one, may bring down the executor. *)
Theorem exec_dies_refuted : forall n, (1 <= n)%nat -> exists es s, run (exec0 n) es = Some s /\ died s = true /\
  forallb (fun e => match e with ECancel _ | EStop => false | _ => true end) es = true.
Proof.
  intros [|n] L; [lia|]. exists (populate (S n) ++ [EKill 0; EQueue 0; EReturn 0; EDraw; ECreate (S n); EExec]).
  rewrite run_app, populate_ok by lia. unfold populated. rewrite Nat.sub_diag. cbn [seq map].
  set (l := map _ (seq 1 n)). assert (LEN : length l = n) by (subst l; now rewrite map_length, seq_length). clearbody l.
  cbn [run step panicked control procs nth_error pool killq wire table swire pmap signals delivered died down set_proc firstn skipn app length Nat.ltb Nat.leb].
  rewrite nth_snoc, LEN, Nat.eqb_refl. cbn [run step panicked pool procs killq wire table swire pmap signals delivered died down app].
  rewrite ids_upto_spec. cbn [Nat.ltb Nat.leb]. eexists. split; [reflexivity|]. split; [reflexivity|].
  rewrite forallb_app. apply andb_true_intro. split; [|reflexivity]. apply forallb_forall. intros e I. unfold populate in I. apply in_flat_map in I. destruct I as (h & _ & [<-|[<-|[<-|[]]]]); reflexivity.
Qed.
Print Assumptions exec_dies_refuted.

(* A process which nobody asked to kill may be killed on behalf of an earlier one. *)
Theorem exec_wrong_kill_refuted : forall n, (1 <= n)%nat -> exists es s p, run (exec0 n) es = Some s /\ died s = false /\
  nth_error (procs s) n = Some p /\ ctl p = Live /\ stg p = Created /\ table s (pid p) = Some n /\ In (Kill, 0%nat, n) (signals s).
Proof.
  intros [|n] L; [lia|]. exists (populate (S n) ++ [EReap 0; EReceive; EKill 0; EQueue 0; EReturn 0; EDraw; ECreate (S n); EExec; ESendOp; EExec]).
  rewrite run_app, populate_ok by lia. unfold populated. rewrite Nat.sub_diag. cbn [seq map].
  set (l := map _ (seq 1 n)). assert (LEN : length l = n) by (subst l; now rewrite map_length, seq_length). clearbody l.
  cbn [run step panicked control procs nth_error pool killq wire table swire pmap signals delivered died down]. rewrite !ids_upto_spec. cbn [Nat.ltb Nat.leb].
  cbn [run step panicked control procs nth_error pool killq wire table swire pmap signals delivered died down set_proc firstn skipn app length Nat.ltb Nat.leb]. rewrite !ids_upto_spec. cbn [Nat.ltb Nat.leb].
  cbn [run step panicked control procs nth_error pool killq wire table swire pmap signals delivered died down set_proc firstn skipn app length Nat.ltb Nat.leb].
  rewrite nth_snoc, LEN, Nat.eqb_refl. cbn [run step panicked pool procs killq wire table swire pmap signals delivered died down app].
  unfold upd at 1. cbn [Nat.eqb]. cbn [run step panicked pool procs killq wire table swire pmap signals delivered died down app].
  unfold upd at 1. cbn [Nat.eqb]. eexists. exists (Proc 0 Live Nobody Created). split; [reflexivity|]. cbn [died procs table signals pid ctl stg]. split; [reflexivity|].
  split; [|split; [reflexivity|split; [reflexivity|split; [reflexivity|now left]]]].
  change (nth_error (firstn n (l ++ [Proc 0 Live Nobody Drawn]) ++ Proc 0 Live Nobody Created :: skipn (S n) (l ++ [Proc 0 Live Nobody Drawn])) n = Some (Proc 0 Live Nobody Created)).
  rewrite nth_error_app2; rewrite firstn_length_le by (rewrite app_length; cbn; lia); [|lia]. now rewrite Nat.sub_diag.
Qed.
Print Assumptions exec_wrong_kill_refuted.

(* A process may be told that it has died when it was another that did; and then the whole
   program panics when the process does die. *)
Theorem exec_wrong_death_refuted : forall n, (1 <= n)%nat -> exists es es' s s', run (exec0 n) es = Some s /\ run s es' = Some s' /\
  In (0%nat, n) (delivered s) /\ died s' = false /\ panicked s' = true.
Proof.
  intros [|n] L; [lia|]. exists (populate (S n) ++ [EKill 0; EQueue 0; ESendOp; EReturn 0; EExec; EReap 0; EDraw; ECreate (S n); EReceive]), [EExec; EReap 0; EReceive].
  rewrite run_app, populate_ok by lia. unfold populated. rewrite Nat.sub_diag. cbn [seq map].
  set (l := map _ (seq 1 n)). assert (LEN : length l = n) by (subst l; now rewrite map_length, seq_length). clearbody l.
  cbn [run step panicked control procs nth_error pool killq wire table swire pmap signals delivered died down set_proc firstn skipn app length Nat.ltb Nat.leb]. rewrite !ids_upto_spec. cbn [Nat.ltb Nat.leb].
  cbn [run step panicked control procs nth_error pool killq wire table swire pmap signals delivered died down set_proc firstn skipn app length Nat.ltb Nat.leb].
  rewrite nth_snoc, LEN, Nat.eqb_refl. cbn [run step panicked pool procs killq wire table swire pmap signals delivered died down app].
  unfold upd at 2. cbn [Nat.eqb]. eexists. eexists. split; [reflexivity|]. split.
  - cbn [run step panicked pool procs killq wire table swire pmap signals delivered died down app upd Nat.eqb]. unfold upd. cbn [Nat.eqb]. reflexivity.
  - cbn [delivered died panicked]. split; [now left|auto].
Qed.
Print Assumptions exec_wrong_death_refuted.

(* Cancelled creations use up ids: after as many as the limit, no process can be created
   although there is none. *)
Definition cancels (n : nat) : list event := flat_map (fun h => [EDraw; ECancel h]) (seq 0 n).
Definition cancelled (n k : nat) : exec :=
  Exec (seq k (n - k)) (map (fun i => Proc i Live Nobody Cancelled) (seq 0 k)) [] [] (fun _ => None) [] (fun _ => None) [] [] false false false.
Lemma cancels_ok n k : (k <= n)%nat -> run (exec0 n) (cancels k) = Some (cancelled n k).
Proof.
  intros L. induction k as [|k IH].
  - cbn. unfold exec0, cancelled. cbn. now rewrite Nat.sub_0_r.
  - unfold cancels. rewrite seq_S, flat_map_app, run_app. fold (cancels k). rewrite IH by lia. cbn [flat_map app].
    assert (LEN : length (map (fun i => Proc i Live Nobody Cancelled) (seq 0 k)) = k) by now rewrite map_length, seq_length.
    unfold cancelled at 1. replace (n - k)%nat with (S (n - S k)) by lia. cbn [seq run step panicked pool procs killq wire table swire pmap signals delivered died down Nat.add].
    rewrite nth_snoc, LEN, Nat.eqb_refl. unfold cancelled. rewrite seq_S, map_app. cbn [map Nat.add]. f_equal. f_equal.
    unfold set_proc. rewrite firstn_app, LEN, Nat.sub_diag. cbn [firstn]. rewrite app_nil_r, firstn_all2 by lia. rewrite skipn_all2 by (rewrite app_length; cbn; lia). reflexivity.
Qed.
Definition used_up (s : exec) : Prop := pool s = [] /\ Forall (fun p => stg p = Cancelled /\ act p = Nobody) (procs s) /\ killq s = [] /\ wire s = [] /\ (forall id, table s id = None) /\ swire s = [].
Lemma used_up_step s e s' : used_up s -> step s e = Some s' -> used_up s' /\ procs s' = procs s.
Proof.
  intros (U1 & U2 & U3 & U4 & U5 & U6) H. unfold step in H. destruct (panicked s); [discriminate|].
  assert (NC : forall h p, nth_error (procs s) h = Some p -> stg p = Cancelled /\ act p = Nobody) by (intros h p N; apply nth_error_In in N; rewrite Forall_forall in U2; exact (U2 p N)).
  destruct e as [|h|h|h|h|h|h|h|h|h| | |id| |]; try unfold control in H; rewrite ?U1, ?U3, ?U4, ?U5, ?U6 in H; try discriminate; try (destruct (died s); discriminate).
  1-9: destruct (nth_error (procs s) h) as [[i c a g]|] eqn:N; [|discriminate]; destruct (NC h _ N) as [X Y]; cbn in X, Y; subst a g; try discriminate; destruct c; discriminate.
  injection H as <-. split; [|reflexivity]. repeat split; auto.
Qed.
Theorem exec_cancel_leaks_refuted : forall n, exists es s, run (exec0 n) es = Some s /\
  Forall (fun p => stg p = Cancelled) (procs s) /\
  forall es' s', run s es' = Some s' -> procs s' = procs s /\ step s' EDraw = None.
Proof.
  intros n. exists (cancels n), (cancelled n n). split; [apply cancels_ok; lia|].
  split; [apply Forall_forall; intros p I; cbn in I; apply in_map_iff in I; destruct I as (i & <- & _); reflexivity|].
  assert (U : used_up (cancelled n n)).
  { repeat split; cbn; auto. - now rewrite Nat.sub_diag. - apply Forall_forall. intros p I. apply in_map_iff in I. destruct I as (i & <- & _). auto. }
  generalize dependent (cancelled n n). intros s U es'. revert s U. induction es' as [|e t IH]; intros s U s' R; cbn in R.
  - injection R as <-. split; [reflexivity|]. unfold step. destruct (panicked s); [reflexivity|]. destruct U as (-> & _). reflexivity.
  - destruct (step s e) as [s1|] eqn:S; [|discriminate]. destruct (used_up_step s e s1 U S) as [U1 P1]. destruct (IH s1 U1 s' R) as [A B]. split; [congruence|exact B].
Qed.
Print Assumptions exec_cancel_leaks_refuted.

(* Two processes with a limit of two: one is suspended, the other finalized; both are told
   of their own deaths and their ids are free again. *)
Definition exec_example : list event :=
  [EDraw; EDraw; ECreate 1; ECreate 0; EExec; EExec; ESuspend 0; EQueue 0; EReturn 0; ESendOp; EExec; EReap 0;
   EFinalize 1; EReceive; EQueue 1; EReturn 1; ESendOp; EExec; EReap 1; EReceive].
Example exec_example_ok : exists s, run (exec0 2) exec_example = Some s /\ length (filter is_draw exec_example) = 2%nat /\
  signals s = [(Suspend, 0%nat, 0%nat); (Kill, 1%nat, 1%nat)] /\ delivered s = [(0, 0); (1, 1)]%nat /\ pool s = [0; 1]%nat.
Proof. eexists. vm_compute. auto 10. Qed.
(* An id is reused while quiet. *)
Example exec_quiet_case : exists s, run (exec0 1) [EDraw; ECreate 0; EExec; EFinalize 0; EReap 0; EReceive; ESeeDead 0; EDraw; ECreate 1; EExec; EKill 1; EQueue 1; ESendOp; EExec] = Some s /\
  signals s = [(Kill, 1%nat, 1%nat)] /\ table s 0%nat = Some 1%nat.
Proof. eexists. vm_compute. auto. Qed.
(* A process that was asked to be killed, exists, and has been signalled. *)
Example exec_request_case : exists s p, run (exec0 3) [EDraw; ECreate 0; EKill 0; EExec; EQueue 0; ESendOp; EExec] = Some s /\ down s = false /\
  nth_error (procs s) 0 = Some p /\ ctl p = Killed /\ table s (pid p) = Some 0%nat.
Proof. eexists. eexists. vm_compute. auto. Qed.
