(* ExecRingProps.v: C35: every reaped status is sent once, in order. *)
From Verif Require Import Base ListLemmas ExecRing.
From Coq Require Import PeanoNat.

(* What is in the queue, oldest first. *)
Definition queued (q : ring) : list entry := map (fun i => nth ((beg q + i) mod N) (slots q) (0, 0)) (seq 0 (queue_length q)).

Definition wf (q : ring) : Prop := (beg q < N /\ fin q < N)%nat /\ length (slots q) = N.
Lemma qlen_cases q : wf q -> (queue_length q = if Nat.leb (beg q) (fin q) then fin q - beg q else fin q + N - beg q)%nat.
Proof.
  intros [[B F] _]. unfold queue_length. destruct (Nat.leb_spec (beg q) (fin q)).
  - replace (fin q + N - beg q)%nat with (fin q - beg q + 1 * N)%nat by lia. rewrite Nat.mod_add by (unfold N; lia). apply Nat.mod_small. lia.
  - apply Nat.mod_small. lia.
Qed.
Lemma N_pos : (N = 128)%nat. Proof. reflexivity. Qed.
Lemma mod_case a b : (a < N -> b < N -> (a + b) mod N = if Nat.ltb (a + b) N then a + b else a + b - N)%nat.
Proof.
  intros A B. destruct (Nat.ltb_spec (a + b) N); [now apply Nat.mod_small|].
  replace (a + b)%nat with (a + b - N + 1 * N)%nat at 1 by lia. rewrite Nat.mod_add by (unfold N; lia). apply Nat.mod_small. lia.
Qed.
Lemma set_slot_nth l i j e : (i < length l)%nat -> nth j (set_slot l i e) (0, 0) = if Nat.eqb j i then e else nth j l (0, 0).
Proof.
  intros I. unfold set_slot. destruct (Nat.eqb_spec j i) as [->|NE].
  - rewrite app_nth2; rewrite firstn_length_le by lia; [|lia]. now rewrite Nat.sub_diag.
  - destruct (Nat.ltb_spec j i).
    + rewrite app_nth1 by (rewrite firstn_length_le; lia). rewrite <- (firstn_skipn i l) at 2. rewrite app_nth1 by (rewrite firstn_length_le; lia). reflexivity.
    + rewrite app_nth2 by (rewrite firstn_length_le; lia). rewrite firstn_length_le by lia.
      destruct (j - i)%nat as [|k] eqn:K; [lia|]. cbn [nth]. rewrite <- (firstn_skipn (S i) l) at 2.
      rewrite app_nth2 by (rewrite firstn_length_le; lia). rewrite firstn_length_le by lia. f_equal. lia.
Qed.
Lemma set_slot_length l i e : (i < length l)%nat -> length (set_slot l i e) = length l.
Proof. intros I. unfold set_slot. rewrite app_length, firstn_length_le by lia. cbn [length]. rewrite skipn_length. lia. Qed.

Lemma map_nth_seq {A} (f : nat -> A) (d : A) n i : (i < n)%nat -> nth i (map f (seq 0 n)) d = f i.
Proof. intros I. rewrite (nth_indep _ d (f 0%nat)) by (rewrite map_length, seq_length; exact I). rewrite map_nth. now rewrite seq_nth by exact I. Qed.
Lemma seq_shift_map k n : seq k n = map (fun i => (k + i)%nat) (seq 0 n).
Proof.
  revert k. induction n as [|n IH]; intros k; [reflexivity|]. cbn [seq map]. rewrite Nat.add_0_r. f_equal. rewrite IH, (IH 1%nat), map_map. apply map_ext. intros; lia.
Qed.
Lemma push_wf s e : wf s -> wf (push s e).
Proof.
  intros [[B F] L]. split; cbn [push beg fin slots].
  - split; [exact B|]. apply Nat.mod_upper_bound. unfold N. lia.
  - rewrite set_slot_length by lia. exact L.
Qed.
Lemma push_queued s e : wf s -> (queue_length s < N - 1)%nat -> queued (push s e) = queued s ++ [e] /\ queue_length (push s e) = S (queue_length s).
Proof.
  intros W A. pose proof (push_wf s e W) as W'. pose proof N_pos as NP. destruct W as [[B F] L].
  assert (QL : queue_length (push s e) = S (queue_length s)).
  { rewrite (qlen_cases _ W'), (qlen_cases s) by (split; [split|]; assumption). rewrite (qlen_cases s) in A by (split; [split|]; assumption).
    cbn [push beg fin]. rewrite (mod_case (fin s) 1) by lia.
    destruct (Nat.ltb_spec (fin s + 1) N); repeat match goal with |- context [Nat.leb ?a ?b] => destruct (Nat.leb_spec a b) | H : context [Nat.leb ?a ?b] |- _ => destruct (Nat.leb_spec a b) end; lia. }
  split; [|exact QL]. unfold queued. rewrite QL, seq_S, map_app. f_equal.
  - apply map_ext_in. intros i I. apply in_seq in I. cbn [push beg slots]. rewrite set_slot_nth by lia.
    destruct (Nat.eqb_spec ((beg s + i) mod N) (fin s)) as [E|E]; [|reflexivity]. exfalso.
    rewrite (qlen_cases s) in I, A by (split; [split|]; assumption). rewrite mod_case in E by (destruct (Nat.leb _ _); lia).
    destruct (Nat.ltb_spec (beg s + i) N), (Nat.leb_spec (beg s) (fin s)); lia.
  - cbn [map]. f_equal. cbn [push beg slots]. rewrite set_slot_nth by lia.
    destruct (Nat.eqb_spec ((beg s + (0 + queue_length s)) mod N) (fin s)) as [E|E]; [reflexivity|]. exfalso. apply E.
    rewrite (qlen_cases s) in * by (split; [split|]; assumption). rewrite mod_case by (destruct (Nat.leb _ _); lia).
    destruct (Nat.ltb_spec (beg s + (0 + (if Nat.leb (beg s) (fin s) then fin s - beg s else fin s + N - beg s))) N), (Nat.leb_spec (beg s) (fin s)); lia.
Qed.
Lemma pop_queued s n b : wf s -> queue_empty s = false -> (0 < n <= offer s)%nat ->
  let s' := Ring ((beg s + n) mod N) (fin s) (slots s) b in
  wf s' /\ queued s = firstn n (skipn (beg s) (slots s)) ++ queued s'.
Proof.
  intros W NE R. cbn zeta. pose proof N_pos as NP. destruct W as [[B F] L].
  assert (W' : wf (Ring ((beg s + n) mod N) (fin s) (slots s) b)) by (split; [split; [apply Nat.mod_upper_bound; lia|exact F]|exact L]).
  split; [exact W'|]. unfold queue_empty in NE. apply Nat.eqb_neq in NE. unfold offer in R.
  assert (QL : (queue_length s = n + queue_length (Ring ((beg s + n) mod N) (fin s) (slots s) b))%nat).
  { rewrite (qlen_cases _ W'), (qlen_cases s) by (split; [split|]; assumption). cbn [beg fin].
    destruct (Nat.eqb_spec (beg s + n) N) as [E|E].
    - rewrite E, Nat.mod_same by lia. destruct (Nat.ltb_spec (beg s) (fin s)), (Nat.leb_spec (beg s) (fin s)), (Nat.leb_spec 0 (fin s)); lia.
    - destruct (Nat.ltb_spec (beg s) (fin s)); rewrite Nat.mod_small by lia; repeat match goal with |- context [Nat.leb ?a ?b] => destruct (Nat.leb_spec a b) end; lia. }
  unfold queued at 1. rewrite QL, seq_app, map_app. f_equal.
  - apply (nth_ext _ _ (0,0) (0,0)).
    + rewrite map_length, seq_length, firstn_length_le; [reflexivity|]. rewrite skipn_length, L. destruct (Nat.ltb_spec (beg s) (fin s)); lia.
    + intros i I. rewrite map_length, seq_length in I.
      rewrite (map_nth_seq (fun i => nth ((beg s + i) mod N) (slots s) (0, 0))) by exact I.
      rewrite nth_firstn_lt by exact I. rewrite nth_skipn_add. f_equal. apply Nat.mod_small. destruct (Nat.ltb_spec (beg s) (fin s)); lia.
  - unfold queued. cbn [beg slots]. cbn [Nat.add]. rewrite (seq_shift_map n), map_map. apply map_ext_in. intros i I. f_equal.
    rewrite Nat.add_assoc. rewrite Nat.add_mod_idemp_l by lia. reflexivity.
Qed.

Lemma qlen_bound s : wf s -> (queue_length s <= N - 1)%nat.
Proof. intros [[B F] _]. unfold queue_length. pose proof (Nat.mod_upper_bound (fin s + N - beg s) N ltac:(unfold N; lia)). lia. Qed.
Lemma empty_queued s : wf s -> queue_empty s = true -> queued s = [].
Proof. intros W E. apply Nat.eqb_eq in E. unfold queued. rewrite (qlen_cases s W), E, Nat.leb_refl, Nat.sub_diag. reflexivity. Qed.
Lemma nonempty_queued s : wf s -> queue_empty s = false -> queued s <> [].
Proof.
  intros W E X. apply Nat.eqb_neq in E. assert (L : length (queued s) = 0%nat) by now rewrite X. unfold queued in L. rewrite map_length, seq_length in L.
  rewrite (qlen_cases s W) in L. destruct W as [[B F] _]. destruct (Nat.leb_spec (beg s) (fin s)); lia.
Qed.

Definition inv (s : loop) : Prop :=
  wf (q s) /\ reaped s = sent s ++ queued (q s) /\
  match at_ s with
  | Waiting => (queue_length (q s) < N - 1)%nat /\ (queue_empty (q s) = true \/ blocked (q s) = true)
  | Handling n => (queue_length (q s) + n <= N - 1)%nat
  | Exited => queued (q s) = []
  | _ => True
  end.
Lemma queued_block a b c d d' : queued (Ring a b c d) = queued (Ring a b c d').
Proof. reflexivity. Qed.
Lemma step_inv s l s' : inv s -> step s l = Some s' -> inv s'.
Proof.
  intros (W & E & P) H. destruct s as [r p re se]. cbn [q at_ reaped sent] in *.
  destruct p as [| |n| |]; cbn [step at_] in H; try discriminate.
  - destruct l as [n| | | | |m|e| |o]; try discriminate; cbn [q reaped sent] in H.
    + destruct (returns r) eqn:R; [discriminate|]. cbn [orb] in H. destruct (Nat.eqb_spec n 0); [discriminate|]. cbn [orb] in H. destruct (Nat.ltb_spec (offer r) n); [discriminate|].
      assert (NE : queue_empty r = false) by (unfold returns in R; destruct (queue_empty r); [discriminate|reflexivity]).
      destruct (pop_queued r n (blocked r) W NE ltac:(lia)) as [W' Q]. injection H as <-. split; [exact W'|]. split; [|exact I]. cbn [reaped sent q]. rewrite E, Q. now rewrite app_assoc.
    + destruct (returns r) eqn:R; [discriminate|]. cbn [orb] in H. destruct (blocking r) eqn:B; [discriminate|]. injection H as <-. split; [exact W|]. split; [exact E|]. cbn [at_ q].
      split; [|now right]. unfold blocking, queue_avail in B. apply Nat.eqb_neq in B. unfold queue_length in *. cbn [fin beg]. lia.
    + destruct (returns r); [discriminate|]. injection H as <-. split; [exact W|]. split; [exact E|exact I].
    + destruct (returns r) eqn:R; [|discriminate]. injection H as <-. split; [exact W|]. split; [exact E|]. cbn [at_ q]. unfold returns in R. destruct (queue_empty r) eqn:QE.
      * split; [|now left]. apply Nat.eqb_eq in QE. rewrite (qlen_cases r W), QE, Nat.leb_refl, Nat.sub_diag. unfold N. lia.
      * cbn [orb] in R. apply andb_prop in R. destruct R as [R1 R2]. split; [|now right]. unfold queue_avail in R1. apply negb_true_iff, Nat.eqb_neq in R1. lia.
  - destruct l as [n| | | | |m|e| |o]; try discriminate; cbn [q reaped sent] in H.
    destruct P as [P1 P2]. unfold buflen, queue_avail in H. destruct (Nat.eqb_spec (Nat.min (N - 1 - queue_length r) N) 0); [lia|].
    destruct (Nat.eqb_spec m 0); [discriminate|]. cbn [orb] in H. destruct (Nat.ltb_spec (Nat.min (N - 1 - queue_length r) N) m); [discriminate|]. injection H as <-.
    split; [exact W|]. split; [exact E|]. cbn [at_ q]. lia.
  - destruct n as [|n]; destruct l as [k| | | | |m|e| |o]; try discriminate; cbn [q reaped sent] in H.
    + injection H as <-. split; [exact W|]. split; [exact E|exact I].
    + destruct (queue_empty r) eqn:QE; [|discriminate]. injection H as <-. split; [exact W|]. split; [exact E|]. cbn [at_ q]. now apply empty_queued.
    + injection H as <-. destruct (push_queued r e W ltac:(lia)) as [Q L]. split; [now apply push_wf|]. cbn [q reaped sent at_]. split; [rewrite E, Q; now rewrite app_assoc|]. rewrite L. lia.
    + injection H as <-. split; [exact W|]. split; [exact E|]. cbn [q at_]. lia.
    + injection H as <-. split; [exact W|]. split; [exact E|]. cbn [q at_]. change (queue_length (Ring _ _ _ _)) with (queue_length r). lia.
Qed.
Lemma inv0 : inv loop0.
Proof. split; [split; [split|]; cbn; unfold N; lia|]. split; [reflexivity|exact I]. Qed.
Lemma run_inv ls : forall s s', inv s -> run s ls = Some s' -> inv s'.
Proof.
  induction ls as [|l t IH]; cbn; intros s s' I H; [now inversion H; subst|]. destruct (step s l) as [s1|] eqn:S; [|discriminate]. apply (IH s1); [|exact H]. now apply (step_inv s l).
Qed.

(* Whatever the kernel answers: the statuses sent so far are the first of those reaped, in
   the same order, each once; at most 127 have not been sent; none is left when the
   executor exits; and whenever it waits for events, it has nothing to send, or it has been
   told to wait for the socket. *)
Theorem exec_statuses_exact : forall ls s, run loop0 ls = Some s -> exists unsent,
  reaped s = sent s ++ unsent /\ (length unsent <= 127)%nat /\
  (at_ s = Exited -> unsent = []) /\
  (at_ s = Waiting -> unsent = [] \/ blocked (q s) = true).
Proof.
  intros ls s R. destruct (run_inv ls _ _ inv0 R) as (W & E & P). exists (queued (q s)). split; [exact E|].
  split; [unfold queued; rewrite map_length, seq_length; pose proof (qlen_bound _ W); unfold N in *; lia|].
  split; [intros X; rewrite X in P; exact P|]. intros X. rewrite X in P. destruct P as [_ [Q|Q]]; [left; now apply empty_queued|now right].
Qed.
Print Assumptions exec_statuses_exact.

(* The executor dies only if the kernel fails to send: there is always room for the events
   it asks for. *)
Theorem exec_dies_only_send : forall ls l s s', run loop0 ls = Some s -> step s l = Some s' -> at_ s' = Died -> l = LSendFailed.
Proof.
  intros ls l s s' R S D. destruct (run_inv ls _ _ inv0 R) as (W & E & P). destruct s as [r p re se]. cbn [q at_ reaped sent] in *.
  destruct p as [| |n| |]; cbn [step at_] in S; try discriminate.
  - destruct l as [n| | | | |m|e| |o]; try discriminate; try reflexivity; exfalso; cbn [q reaped sent] in S.
    + destruct (returns r || Nat.eqb n 0 || Nat.ltb (offer r) n); [discriminate|]. injection S as <-. discriminate D.
    + destruct (returns r || blocking r); [discriminate|]. injection S as <-. discriminate D.
    + destruct (returns r); [|discriminate]. injection S as <-. discriminate D.
  - exfalso. destruct l as [n| | | | |m|e| |o]; try discriminate; cbn [q reaped sent] in S. destruct P as [P1 _]. unfold buflen, queue_avail in S. destruct (Nat.eqb_spec (Nat.min (N - 1 - queue_length r) N) 0); [lia|].
    destruct (Nat.eqb m 0 || _); [discriminate|]. injection S as <-. discriminate D.
  - exfalso. destruct n as [|n]; destruct l as [k| | | | |m|e| |o]; try discriminate; cbn [q reaped sent] in S; try (injection S as <-; discriminate D).
    destruct (queue_empty r); [|discriminate]. injection S as <-. discriminate D.
Qed.
Print Assumptions exec_dies_only_send.

(* Progress: when the kernel accepts all it is offered, at most two calls of send pass on
   everything that was reaped. *)
Theorem exec_flush : forall ls s, run loop0 ls = Some s -> at_ s = Sending -> blocked (q s) = false ->
  exists ns s', (length ns <= 2)%nat /\ run s (map LSent ns) = Some s' /\ at_ s' = Sending /\ sent s' = reaped s /\ reaped s' = reaped s.
Proof.
  intros ls s R A B. destruct (run_inv ls _ _ inv0 R) as (W & E & _). destruct s as [r p re se]. cbn [q at_ reaped sent] in *. subst p. clear R.
  destruct (queue_empty r) eqn:QE.
  - exists [], (Loop r Sending re se). cbn [length map run at_ sent reaped]. rewrite (empty_queued r W QE), app_nil_r in E. repeat split; auto; lia.
  - pose proof N_pos as NP. pose proof W as W0; destruct W0 as [[Bb Bf] L].
    assert (O1 : (0 < offer r <= offer r)%nat).
    { unfold offer. unfold queue_empty in QE. apply Nat.eqb_neq in QE. destruct (Nat.ltb_spec (beg r) (fin r)); lia. }
    destruct (pop_queued r (offer r) (blocked r) ltac:(split; [split|]; assumption) QE O1) as [W1 Q1].
    set (r1 := Ring ((beg r + offer r) mod N) (fin r) (slots r) (blocked r)) in *.
    assert (RT : returns r = false) by (unfold returns; rewrite QE, B; cbn [orb]; now rewrite andb_false_r).
    assert (S1 : step (Loop r Sending re se) (LSent (offer r)) = Some (Loop r1 Sending re (se ++ firstn (offer r) (skipn (beg r) (slots r))))).
    { cbn [step at_ q reaped sent]. rewrite RT. destruct (Nat.eqb_spec (offer r) 0); [lia|]. rewrite Nat.ltb_irrefl. reflexivity. }
    destruct (queue_empty r1) eqn:QE1.
    + exists [offer r]. eexists. split; [cbn; lia|]. cbn [map run]. rewrite S1. split; [reflexivity|]. cbn [at_ sent reaped]. rewrite E, Q1, (empty_queued r1 W1 QE1), app_nil_r. repeat split.
    + assert (O2 : (0 < offer r1 <= offer r1)%nat).
      { destruct W1 as [[W1a _] _]. unfold offer. unfold queue_empty in QE1. apply Nat.eqb_neq in QE1. destruct (Nat.ltb_spec (beg r1) (fin r1)); lia. }
      destruct (pop_queued r1 (offer r1) (blocked r1) W1 QE1 O2) as [W2 Q2].
      set (r2 := Ring ((beg r1 + offer r1) mod N) (fin r1) (slots r1) (blocked r1)) in *.
      assert (RT1 : returns r1 = false) by (unfold returns; rewrite QE1; cbn [orb]; change (blocked r1) with (blocked r); rewrite B; now rewrite andb_false_r).
      assert (QE2 : queue_empty r2 = true).
      { unfold queue_empty in *. apply Nat.eqb_neq in QE, QE1. apply Nat.eqb_eq. subst r2 r1. cbn [beg fin slots blocked] in *. revert QE1. unfold offer. cbn [beg fin]. destruct (Nat.ltb_spec (beg r) (fin r)).
        - replace (beg r + (fin r - beg r))%nat with (fin r) by lia. rewrite (Nat.mod_small (fin r)) by lia. lia.
        - replace (beg r + (N - beg r))%nat with N by lia. rewrite Nat.mod_same by lia. intros X. destruct (Nat.ltb_spec 0 (fin r)); [|lia]. rewrite Nat.mod_small by lia. lia. }
      exists [offer r; offer r1]. eexists. split; [cbn; lia|]. cbn [map run]. rewrite S1.
      assert (S2 : forall x, step (Loop r1 Sending re x) (LSent (offer r1)) = Some (Loop r2 Sending re (x ++ firstn (offer r1) (skipn (beg r1) (slots r1))))).
      { intros x. cbn [step at_ q reaped sent]. rewrite RT1. destruct (Nat.eqb_spec (offer r1) 0); [lia|]. rewrite Nat.ltb_irrefl. reflexivity. }
      rewrite S2. split; [reflexivity|]. cbn [at_ sent reaped]. rewrite E, Q1, Q2, (empty_queued r2 W2 QE2), app_nil_r, app_assoc. repeat split.
Qed.
Print Assumptions exec_flush.

(* Two processes are reaped in one round; the second is sent after the socket was full;
   then the executor exits. *)
Definition exec_example : list label :=
  [LLoop; LEvents 2; LReap (5, 9); LReap (7, 0); LLoop; LSent 1; LAgain; LEvents 1; LControl true; LLoop; LSent 1; LLoop; LEvents 1; LControl false; LShutdown].
Example exec_example_ok : exists s, run loop0 exec_example = Some s /\ at_ s = Exited /\ sent s = [(5, 9); (7, 0)].
Proof. eexists. vm_compute. auto. Qed.
Example exec_flush_case : exists s, run loop0 [LLoop; LEvents 2; LReap (5, 9); LReap (7, 0); LLoop] = Some s /\ at_ s = Sending /\ blocked (q s) = false /\ sent s = [].
Proof. eexists. vm_compute. auto. Qed.
(* A failing send is possible. *)
Example exec_died_case : exists s, run loop0 [LLoop; LEvents 1; LReap (5, 9); LLoop; LSendFailed] = Some s /\ at_ s = Died.
Proof. eexists. vm_compute. auto. Qed.
