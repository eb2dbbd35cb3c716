(* ShardProps.v: properties of process distribution (C43) and preparation (C53). *)
From Verif Require Import Base ListLemmas Shard.
From Coq Require Import Permutation.

(* ---- C43: distribution among channels ---- *)

Lemma fill_length k : forall v c, length (fill k v c) = k.
Proof. induction k as [|k IH]; intros v c; cbn; [reflexivity|]. now rewrite IH. Qed.
Lemma fill_bound k : forall v c x, In x (fill k v c) -> (v <= x <= v + k)%nat /\ ((c < v)%nat -> (x < v + k)%nat).
Proof.
  induction k as [|k IH]; intros v c x I; [destruct I|]. cbn [fill In] in I.
  destruct (Nat.eqb_spec v c); destruct I as [<-|I]; try lia; apply IH in I; lia.
Qed.
Lemma fill_other k : forall v c x, In x (fill k v c) -> x <> c.
Proof.
  induction k as [|k IH]; intros v c x I; [destruct I|]. cbn [fill In] in I.
  destruct (Nat.eqb v c) eqn:E; destruct I as [<-|I]; try (now apply IH in I).
  - apply Nat.eqb_eq in E. lia.
  - apply Nat.eqb_neq in E. exact E.
Qed.
Lemma remove_at_length c u u' : remove_at c u = Some u' -> S (length u') = length u /\ (c < length u)%nat.
Proof.
  unfold remove_at. destruct (Nat.leb_spec (S c) (length u)); [|discriminate]. intros E; assert (E' : firstn c u ++ skipn (S c) u = u') by congruence; clear E; subst u'.
  rewrite app_length, firstn_length, skipn_length. lia.
Qed.
Lemma remove_at_In c u u' x : remove_at c u = Some u' -> In x u' -> In x u.
Proof.
  unfold remove_at. destruct (Nat.leb (S c) (length u)); [|discriminate]. intros E; assert (E' : firstn c u ++ skipn (S c) u = u') by congruence; clear E; subst u'.
  rewrite in_app_iff. intros [H|H]; [now apply firstn_In in H|now apply skipn_In in H].
Qed.

(* How one request goes.  It tries channels one by one: every try but the last one
   found an empty channel, so only the last one can have received something. The
   last one is decisive: it found something, or crashed the program, or was the
   waiting one after n empty tries. *)
Definition request_spec (n : nat) (polls : nat -> nat -> poll) (ctxdone : bool) (last : option poll) (r : outcome) (t : list nat) : Prop :=
  exists j, length t = S j /\ (j <= n)%nat /\ (forall c, In c t -> (c < n)%nat) /\
    (forall k, (k < j)%nat -> polls k (nth k t O) = PEmpty /\ ((1 <= k)%nat -> (nth k t O < n - k)%nat)) /\
    let c := nth j t O in
    (((j < n)%nat /\ polls j c <> PEmpty /\ r = received ctxdone c (polls j c)) \/
     ((1 <= j < n)%nat /\ polls j c = PEmpty /\ (n - j <= c)%nat /\ r = Crash) \/
     (j = n /\ c = nth 0 t O /\ r = match last with None => CtxErr | Some p => received ctxdone c p end)).

Lemma shard_loop_spec rnd polls ctxdone last n first : (first < n)%nat ->
  forall fuel k unseen, (length unseen <= fuel)%nat -> (k + length unseen = n)%nat -> (1 <= k)%nat -> (forall x, In x unseen -> (x < n)%nat) ->
  let (r, t) := shard_loop rnd polls ctxdone last fuel k first unseen in
  exists j, length t = S j /\ (k + j <= n)%nat /\ (forall c, In c t -> (c < n)%nat) /\
    (forall i, (i < j)%nat -> polls (k + i)%nat (nth i t O) = PEmpty /\ (nth i t O < n - (k + i))%nat) /\
    let c := nth j t O in
    (((k + j < n)%nat /\ polls (k + j)%nat c <> PEmpty /\ r = received ctxdone c (polls (k + j)%nat c)) \/
     ((k + j < n)%nat /\ polls (k + j)%nat c = PEmpty /\ (n - (k + j) <= c)%nat /\ r = Crash) \/
     ((k + j)%nat = n /\ c = first /\ r = match last with None => CtxErr | Some p => received ctxdone c p end)).
Proof.
  intros LF. induction fuel as [|fuel IH]; intros k unseen L K K1 B.
  - destruct unseen as [|u us]; [|cbn in L; lia]. cbn [shard_loop]. exists O. cbn in K.
    split; [reflexivity|]. split; [lia|]. split; [intros c [<-|[]]; assumption|]. split; [lia|]. right. right. repeat split. lia.
  - destruct unseen as [|u us].
    { cbn [shard_loop]. exists O. cbn in K.
      split; [reflexivity|]. split; [lia|]. split; [intros c [<-|[]]; assumption|]. split; [lia|]. right. right. repeat split. lia. }
    cbn [shard_loop]. set (un := u :: us) in *. set (choice := nth (rnd k mod length un) un O).
    assert (CI : In choice un). { apply nth_In. apply Nat.mod_upper_bound. discriminate. }
    assert (LU : (0 < length un)%nat) by (cbn; lia).
    destruct (polls k choice) as [| |x] eqn:P.
    + destruct (remove_at choice un) as [u'|] eqn:R.
      * pose proof (remove_at_length _ _ _ R) as [RL RC].
        specialize (IH (S k) u' ltac:(lia) ltac:(lia) ltac:(lia)).
        assert (B' : forall x, In x u' -> (x < n)%nat) by (intros x X; apply B; eapply remove_at_In; eassumption).
        specialize (IH B'). destruct (shard_loop rnd polls ctxdone last fuel (S k) first u') as [r t].
        destruct IH as (j & A1 & A2 & A3 & A4 & A5). exists (S j). cbn [length nth].
        split; [now rewrite A1|]. split; [lia|]. split; [intros c [<-|I]; auto|]. split.
        { intros [|i] I; [rewrite Nat.add_0_r; split; [exact P|lia]|]. specialize (A4 i ltac:(lia)). replace (k + S i)%nat with (S k + i)%nat by lia. exact A4. }
        replace (k + S j)%nat with (S k + j)%nat by lia. exact A5.
      * exists O. cbn [length nth]. rewrite Nat.add_0_r. split; [reflexivity|]. split; [lia|]. split; [intros c [<-|[]]; auto|]. split; [lia|].
        right. left. unfold remove_at in R. destruct (Nat.leb_spec (S choice) (length un)); [discriminate|]. repeat split; auto; lia.
    + exists O. cbn [length nth]. rewrite Nat.add_0_r. split; [reflexivity|]. split; [lia|]. split; [intros c [<-|[]]; auto|]. split; [lia|].
      left. rewrite P. repeat split; [lia|discriminate].
    + exists O. cbn [length nth]. rewrite Nat.add_0_r. split; [reflexivity|]. split; [lia|]. split; [intros c [<-|[]]; auto|]. split; [lia|].
      left. rewrite P. repeat split; [lia|discriminate].
Qed.

Theorem distribution_exact : forall n rnd polls ctxdone last, (0 < n)%nat ->
  request_spec n polls ctxdone last (fst (shard_NewProcess rnd polls ctxdone last n)) (snd (shard_NewProcess rnd polls ctxdone last n)).
Proof.
  intros n rnd polls ctxdone last N. unfold shard_NewProcess, request_spec. destruct n as [|m]; [lia|].
  set (first := (rnd 0%nat mod S m)%nat). assert (LF : (first < S m)%nat) by (apply Nat.mod_upper_bound; discriminate).
  destruct (polls 0%nat first) as [| |x] eqn:P.
  - pose proof (shard_loop_spec rnd polls ctxdone last (S m) first LF (S m) 1 (fill m 0 first)) as H.
    rewrite fill_length in H. specialize (H ltac:(lia) ltac:(lia) ltac:(lia)).
    assert (B : forall x, In x (fill m 0 first) -> (x < S m)%nat) by (intros x I; apply fill_bound in I; lia).
    specialize (H B). destruct (shard_loop rnd polls ctxdone last (S m) 1 first (fill m 0 first)) as [r t]. cbn [fst snd].
    destruct H as (j & A1 & A2 & A3 & A4 & A5). exists (S j). cbn [length nth].
    split; [now rewrite A1|]. split; [lia|]. split; [intros c [<-|I]; auto|]. split.
    { intros [|k] K; [split; [exact P|lia]|]. specialize (A4 k ltac:(lia)). cbn [Nat.add] in A4. destruct A4 as [Q1 Q2]. split; [exact Q1|intros _; exact Q2]. }
    cbn [Nat.add] in A5. destruct A5 as [A5|[A5|A5]]; [left; exact A5|right; left|right; right; exact A5].
    destruct A5 as (Q1 & Q2 & Q3 & Q4). repeat split; auto; lia.
  - exists O. cbn [fst snd length nth]. split; [reflexivity|]. split; [lia|]. split; [intros c [<-|[]]; auto|]. split; [lia|].
    left. rewrite P. repeat split; [lia|discriminate].
  - exists O. cbn [fst snd length nth]. split; [reflexivity|]. split; [lia|]. split; [intros c [<-|[]]; auto|]. split; [lia|].
    left. rewrite P. repeat split; [lia|discriminate].
Qed.
Print Assumptions distribution_exact.
Example distribution_example :
  let polls := fun k c => if Nat.eqb c 1 then PItem (Proc 7) else PEmpty in
  shard_NewProcess (fun k => if Nat.eqb k 0 then 2%nat else 1%nat) polls false None 3 = (Got 1 (Proc 7), [2; 1]%nat).
Proof. reflexivity. Qed.

(* C43: consequences for the caller. *)
Theorem distribution_member : forall n rnd polls ctxdone last c x t,
  shard_NewProcess rnd polls ctxdone last n = (Got c x, t) ->
  (c < n)%nat /\ ((exists k, polls k c = PItem x) \/ last = Some (PItem x)).
Proof.
  intros n rnd polls ctxdone last c x t E. destruct n as [|m]; [discriminate|].
  pose proof (distribution_exact (S m) rnd polls ctxdone last ltac:(lia)) as (j & A1 & A2 & A3 & A4 & A5). rewrite E in *. cbn [fst snd] in *.
  assert (IT : In (nth j t O) t) by (apply nth_In; lia). apply A3 in IT.
  assert (RG : forall c0 p, received ctxdone c0 p = Got c x -> c0 = c /\ p = PItem x).
  { intros c0 p. unfold received. destruct p; [destruct ctxdone; discriminate..|]. injection 1 as -> ->. auto. }
  destruct A5 as [(_ & _ & A5)|[(_ & _ & _ & A5)|(_ & A & A5)]]; [| discriminate |].
  - symmetry in A5. apply RG in A5. destruct A5 as [Q A5]. rewrite Q in *. split; [exact IT|]. left. exists j. exact A5.
  - destruct last as [p|]; [|discriminate]. symmetry in A5. apply RG in A5. destruct A5 as [Q ->]. rewrite Q in *. auto.
Qed.
Print Assumptions distribution_member.

Theorem distribution_errors : forall n rnd polls ctxdone last t, last <> Some PEmpty ->
  (shard_NewProcess rnd polls ctxdone last n = (ClosedErr, t) ->
     ctxdone = false /\ ((exists k c, (c < n)%nat /\ polls k c = PClosed) \/ last = Some PClosed)) /\
  (shard_NewProcess rnd polls ctxdone last n = (CtxErr, t) -> ctxdone = true \/ last = None).
Proof.
  intros n rnd polls ctxdone last t NL. destruct n as [|m]; [split; discriminate|].
  pose proof (distribution_exact (S m) rnd polls ctxdone last ltac:(lia)) as (j & A1 & A2 & A3 & A4 & A5).
  split; intros E; rewrite E in *; cbn [fst snd] in *;
    (assert (IT : In (nth j t O) t) by (apply nth_In; lia)); apply A3 in IT;
    (destruct A5 as [(_ & NE & A5)|[(_ & _ & _ & A5)|(_ & A & A5)]]; [|discriminate|]).
  - destruct (polls j (nth j t O)) as [| |x] eqn:P; [congruence| |discriminate]. cbn in A5. destruct ctxdone; [discriminate|]. split; [reflexivity|]. left. eauto.
  - destruct last as [[| |x]|]; try discriminate; [congruence|]. cbn in A5. destruct ctxdone; [discriminate|]. auto.
  - destruct (polls j (nth j t O)) as [| |x] eqn:P; [congruence| |discriminate]. cbn in A5. destruct ctxdone; [auto|discriminate].
  - destruct last as [[| |x]|]; try discriminate; [congruence| |auto]. cbn in A5. destruct ctxdone; [auto|discriminate].
Qed.
Print Assumptions distribution_errors.

(* C43, refuted part: with any number (other than one) of executors there are
   random choices that crash the program while every channel is empty. *)
Theorem distribution_crash_refuted : forall n polls ctxdone last, n <> 1%nat ->
  (forall k c, polls k c = PEmpty) ->
  exists rnd, fst (shard_NewProcess rnd polls ctxdone last n) = Crash.
Proof.
  intros n polls ctxdone last N E. destruct n as [|[|m]]; [exists (fun _ => O); reflexivity|congruence|].
  exists (fun k => match k with O => O | _ => m end). unfold shard_NewProcess. rewrite Nat.mod_0_l by discriminate. rewrite E.
  assert (F : forall k v, (0 < v)%nat -> fill k v 0 = seq v k).
  { induction k as [|k IH]; intros v V; [reflexivity|]. cbn [fill seq]. destruct v; [lia|]. cbn [Nat.eqb]. now rewrite IH by lia. }
  cbn [fill Nat.eqb]. rewrite F by lia. change (1%nat :: seq 2 m) with (seq 1 (S m)). cbn [shard_loop]. rewrite seq_length.
  destruct (seq 1 (S m)) as [|s0 ss] eqn:SQ; [discriminate|]. rewrite <- SQ.
  rewrite Nat.mod_small by lia. rewrite seq_nth by lia. rewrite E. unfold remove_at. rewrite seq_length.
  replace (Nat.leb (S (1 + m)) (S m)) with false by (symmetry; apply Nat.leb_gt; lia). reflexivity.
Qed.
Print Assumptions distribution_crash_refuted.
(* A request that finds something at the first try does not crash. *)
Theorem distribution_no_crash_partial : forall n rnd polls ctxdone last, (0 < n)%nat ->
  (forall c, (c < n)%nat -> polls 0%nat c <> PEmpty) -> fst (shard_NewProcess rnd polls ctxdone last n) <> Crash.
Proof.
  intros n rnd polls ctxdone last N E H. destruct n as [|m]; [lia|]. unfold shard_NewProcess in H.
  specialize (E (rnd 0%nat mod S m)%nat ltac:(apply Nat.mod_upper_bound; discriminate)).
  destruct (polls 0%nat _); [congruence|cbn in H; destruct ctxdone; discriminate|discriminate].
Qed.
Print Assumptions distribution_no_crash_partial.

(* ---- C53: preparation ---- *)

Definition in_hand (s : prep) : list item := match ph s with Sending x => [x] | _ => [] end.
Definition inv (s : prep) : Prop :=
  made s = map fst (taken s) ++ buf s ++ in_hand s ++ dropped s /\
  (forall i p, nth_error (made s) i = Some (Proc p) -> p = i) /\
  (length (buf s) <= cap s)%nat /\
  (match ph s with Making | Sending _ => dropped s = [] /\ (forall x, ~ In (x, Killed) (taken s)) | _ => done s = true end) /\
  (ph s = Ended -> buf s = []).

Lemma step_inv s a s' : inv s -> step s a = Some s' -> inv s'.
Proof.
  intros (M & U & C & D & E) H. unfold step in H. destruct s as [cp b p d m tk dr]. cbn [cap buf ph done made taken dropped in_hand] in *.
  unfold inv, in_hand in *. cbn [cap buf ph done made taken dropped] in *.
  destruct a as [ok| |who|who| | | |].
  - destruct p; try discriminate. injection H as <-. cbn. destruct D as [-> D]. cbn [app] in M.
    split; [rewrite M, ?app_nil_r, <- ?app_assoc; reflexivity|]. split; [|repeat split; auto; discriminate].
    intros i q Hi. destruct (Nat.lt_ge_cases i (length m)) as [L|G]; [rewrite nth_error_app1 in Hi by assumption; now apply U|].
    rewrite nth_error_app2 in Hi by assumption. destruct (i - length m)%nat as [|k] eqn:K; [|destruct k; discriminate].
    cbn in Hi. destruct ok; [|discriminate]. injection Hi as <-. lia.
  - destruct p as [|x| |]; try discriminate. destruct (Nat.ltb_spec (length b) cp); [|discriminate]. injection H as <-. cbn.
    destruct D as [-> D]. split; [rewrite M, ?app_nil_r, <- ?app_assoc; reflexivity|]. split; [exact U|]. split; [rewrite app_length; cbn; lia|]. split; [auto|discriminate].
  - destruct p as [|x| |]; try discriminate. destruct b; [|discriminate]. injection H as <-. cbn. destruct D as [-> D].
    split; [rewrite M, map_app; cbn; rewrite ?app_nil_r, <- ?app_assoc; reflexivity|]. split; [exact U|]. split; [lia|]. split; [|discriminate].
    split; [reflexivity|]. intros y I. apply in_app_iff in I. destruct I as [I|[I|[]]]; [now apply D in I|discriminate].
  - assert (H' : match b with [] => None | x :: t => Some (Prep cp t p d m (tk ++ [(x, Delivered who)]) dr) end = Some s') by (destruct p; exact H).
    destruct b as [|x t]; [discriminate|]. injection H' as <-. cbn.
    split; [rewrite M, map_app; cbn; rewrite <- ?app_assoc; reflexivity|]. split; [exact U|]. split; [cbn in C; lia|]. split.
    + destruct p; auto; (destruct D as [D1 D2]; split; [exact D1|]; intros y I; apply in_app_iff in I; destruct I as [I|[I|[]]]; [now apply D2 in I|discriminate]).
    + intros X. specialize (E X). discriminate.
  - assert (H' : Some (Prep cp b p true m tk dr) = Some s') by (destruct p; exact H). injection H' as <-. cbn.
    repeat split; auto. destruct p; auto.
  - destruct p as [|x| |]; try discriminate. destruct d; [|discriminate]. injection H as <-. cbn.
    destruct D as [-> D]. split; [exact M|]. repeat split; auto; discriminate.
  - destruct p; try discriminate. destruct b as [|x t]; [discriminate|]. injection H as <-. cbn.
    split; [rewrite M, map_app; cbn; rewrite <- ?app_assoc; reflexivity|]. split; [exact U|]. split; [cbn in C; lia|]. split; [exact D|discriminate].
  - destruct p; try discriminate. destruct b as [|x t]; [|discriminate]. injection H as <-. cbn.
    split; [exact M|]. repeat split; auto.
Qed.

Lemma run_inv l : forall s s', inv s -> run s l = Some s' -> inv s'.
Proof.
  induction l as [|a t IH]; intros s s' I R; cbn in R; [now injection R as <-|].
  destruct (step s a) as [s1|] eqn:S; [|discriminate]. apply (IH s1); [now apply (step_inv s a)|exact R].
Qed.
Lemma prep_inv bufsize s : PrepareProcesses bufsize = Ok s -> inv s.
Proof.
  unfold PrepareProcesses. destruct (bufsize <? 1); [discriminate|]. injection 1 as <-. unfold inv. cbn.
  repeat split; auto; try lia; try discriminate. intros i p. destruct i; discriminate.
Qed.

Definition delivered (s : prep) : list item := map fst (filter (fun x => match snd x with Delivered _ => true | Killed => false end) (taken s)).
Definition killed (s : prep) : list item := dropped s ++ map fst (filter (fun x => match snd x with Delivered _ => false | Killed => true end) (taken s)).

Lemma split_taken (l : list (item * fate)) :
  Permutation (map fst l) (map fst (filter (fun x => match snd x with Delivered _ => true | Killed => false end) l) ++
                           map fst (filter (fun x => match snd x with Delivered _ => false | Killed => true end) l)).
Proof.
  induction l as [|[x [w|]] t IH]; cbn; [constructor|now constructor|]. apply Permutation_cons_app. exact IH.
Qed.

(* C53: at every moment each process the factory made is in exactly one place: in
   the loop's hands, in the channel, delivered to one requester, or killed; and
   no process is killed before the preparation context is cancelled. *)
Theorem prepared_accounted : forall bufsize s0 l s,
  PrepareProcesses bufsize = Ok s0 -> run s0 l = Some s ->
  Permutation (made s) (delivered s ++ killed s ++ buf s ++ in_hand s) /\
  (forall p, (count_occ Nat.eq_dec (flat_map (fun x => match x with Proc p => [p] | Fail => [] end) (made s)) p <= 1)%nat) /\
  (done s = false -> killed s = []) /\
  Z.of_nat (length (buf s)) <= bufsize - 1.
Proof.
  intros bufsize s0 l s P R. pose proof (run_inv l s0 s (prep_inv _ _ P) R) as (M & U & C & D & E).
  split; [|split; [|split]].
  - rewrite M. unfold delivered, killed. rewrite (split_taken (taken s)) at 1. rewrite <- !app_assoc. apply Permutation_app_head.
    rewrite (Permutation_app_comm (dropped s)), <- !app_assoc. reflexivity.
  - intros p. clear - U. assert (G : forall (m : list item) k, (forall i q, nth_error m i = Some (Proc q) -> q = (k + i)%nat) ->
      NoDup (flat_map (fun x => match x with Proc p => [p] | Fail => [] end) m) /\ forall q, In q (flat_map (fun x => match x with Proc p => [p] | Fail => [] end) m) -> (k <= q)%nat).
    { induction m as [|x m IH]; intros k H; cbn; [split; [constructor|intros ? []]|].
      destruct (IH (S k)) as [N B]; [intros i q Q; rewrite (H (S i) q Q); lia|].
      destruct x as [q|]; cbn; [|split; [exact N|intros q Q; apply B in Q; lia]]. pose proof (H 0%nat q eq_refl) as ->. split.
      - constructor; [intros Q; apply B in Q; lia|exact N].
      - intros q [<-|Q]; [lia|apply B in Q; lia]. }
    destruct (G (made s) 0%nat U) as [N _]. now apply NoDup_count_occ.
  - intros DN. unfold killed. destruct (ph s); [| |congruence|congruence]; destruct D as [-> D]; cbn;
      (destruct (filter (fun x => match snd x with Delivered _ => false | Killed => true end) (taken s)) as [|[x9 f] r] eqn:F; [reflexivity|exfalso];
       assert (I : In (x9, f) ((x9, f) :: r)) by (now left); rewrite <- F in I; apply filter_In in I; destruct I as [I Q]; destruct f; [discriminate|now apply D in I]).
  - assert (CAP : cap s = Z.to_nat (bufsize - 1) /\ 1 <= bufsize).
    { unfold PrepareProcesses in P. destruct (Z.ltb_spec bufsize 1); [discriminate|]. injection P as <-. split; [|lia].
      assert (G : forall l s s', run s l = Some s' -> cap s' = cap s).
      { clear. induction l as [|a t IH]; intros s s' H; cbn in H; [now injection H as <-|]. destruct (step s a) as [s1|] eqn:S; [|discriminate].
        apply IH in H. rewrite H. unfold step in S. destruct a, (ph s); try discriminate; try (injection S as <-; reflexivity);
          try (destruct (buf s); [|discriminate]; injection S as <-; reflexivity); try (destruct (buf s); [discriminate|]; injection S as <-; reflexivity).
        - destruct (Nat.ltb _ _); [|discriminate]. injection S as <-. reflexivity.
        - destruct (done s); [|discriminate]. injection S as <-. reflexivity. }
      now rewrite (G _ _ _ R). }
    destruct CAP as [CAP B]. rewrite CAP in C. lia.
Qed.
Print Assumptions prepared_accounted.

(* C53: the requesters get the items in the order in which they were made, as long
   as the context isn't cancelled. *)
Theorem prepared_in_order : forall bufsize s0 l s,
  PrepareProcesses bufsize = Ok s0 -> run s0 l = Some s -> done s = false ->
  made s = delivered s ++ buf s ++ in_hand s.
Proof.
  intros bufsize s0 l s P R DN. pose proof (run_inv l s0 s (prep_inv _ _ P) R) as (M & U & C & D & E).
  rewrite M. unfold delivered. assert (DR : dropped s = [] /\ (forall x, ~ In (x, Killed) (taken s))) by (destruct (ph s); [exact D|exact D|congruence|congruence]).
  destruct DR as [-> DT]. rewrite app_nil_r. f_equal. clear - DT. induction (taken s) as [|[x [w|]] t IH]; [reflexivity| |].
  - cbn. f_equal. apply IH. intros y I. apply (DT y). now right.
  - exfalso. apply (DT x). now left.
Qed.
Print Assumptions prepared_in_order.

(* C53: once the loop has ended, every process was delivered or killed. *)
Theorem prepared_none_leaked : forall bufsize s0 l s,
  PrepareProcesses bufsize = Ok s0 -> run s0 l = Some s -> ph s = Ended ->
  done s = true /\ Permutation (made s) (delivered s ++ killed s).
Proof.
  intros bufsize s0 l s P R EN. destruct (prepared_accounted bufsize s0 l s P R) as (A & _).
  pose proof (run_inv l s0 s (prep_inv _ _ P) R) as (M & U & C & D & E). rewrite (E EN) in A. unfold in_hand in A. rewrite EN in A. cbn in A. rewrite !app_nil_r in A.
  rewrite EN in D. auto.
Qed.
Print Assumptions prepared_none_leaked.

(* C53: after cancellation the loop can always end, within as many steps of its own
   as there are items in the channel plus three, whatever happens meanwhile. *)
Definition own (a : action) : bool := match a with AMake _ | AExit | ADrain | AEnd => true | _ => false end.
Theorem prepared_ends : forall s, done s = true ->
  exists l s', Forall (fun a => own a = true) l /\ (length l <= length (buf s) + 3)%nat /\ run s l = Some s' /\ ph s' = Ended.
Proof.
  assert (DR : forall b s, ph s = Draining -> buf s = b -> exists l s', Forall (fun a => own a = true) l /\ length l = (length b + 1)%nat /\ run s l = Some s' /\ ph s' = Ended).
  { induction b as [|x t IH]; intros s P B.
    - eexists [AEnd], _. cbn [run step]. rewrite P, B. repeat split. repeat constructor.
    - destruct (IH (Prep (cap s) t Draining (done s) (made s) (taken s ++ [(x, Killed)]) (dropped s)) eq_refl eq_refl) as (l & s' & F & L & R & E).
      exists (ADrain :: l), s'. split; [constructor; [reflexivity|exact F]|]. split; [cbn; lia|]. split; [|exact E]. cbn [run step]. rewrite P, B. exact R. }
  assert (SE : forall s x, ph s = Sending x -> done s = true -> exists l s', Forall (fun a => own a = true) l /\ (length l <= length (buf s) + 2)%nat /\ run s l = Some s' /\ ph s' = Ended).
  { intros s x P D. destruct (DR (buf s) (Prep (cap s) (buf s) Draining true (made s) (taken s) [x]) eq_refl eq_refl) as (l & s' & F & L & R & E).
    exists (AExit :: l), s'. split; [constructor; [reflexivity|exact F]|]. split; [cbn; lia|]. split; [|exact E]. cbn [run step]. rewrite P, D. exact R. }
  intros s D. destruct (ph s) as [|x| |] eqn:P.
  - set (s1 := Prep (cap s) (buf s) (Sending Fail) (done s) (made s ++ [Fail]) (taken s) (dropped s)).
    destruct (SE s1 Fail eq_refl D) as (l & s' & F & L & R & E). exists (AMake false :: l), s'.
    split; [constructor; [reflexivity|exact F]|]. split; [cbn in *; lia|]. split; [|exact E]. cbn [run step]. rewrite P. exact R.
  - destruct (SE s x P D) as (l & s' & F & L & R & E). exists l, s'. repeat split; auto. lia.
  - destruct (DR (buf s) s P eq_refl) as (l & s' & F & L & R & E). exists l, s'. repeat split; auto. lia.
  - exists [], s. repeat split; auto. cbn. lia.
Qed.
Print Assumptions prepared_ends.

(* C53: a zero or negative bufsize crashes. *)
Theorem prepare_bufsize : forall bufsize, PrepareProcesses bufsize = Panic <-> bufsize <= 0.
Proof. intros b. unfold PrepareProcesses. destruct (Z.ltb_spec b 1); split; intros; try lia; try discriminate; reflexivity. Qed.
Print Assumptions prepare_bufsize.

Example prepared_example : exists s0 s,
  PrepareProcesses 2 = Ok s0 /\
  run s0 [AMake true; ASend; AMake false; ARecv 5; ASend; AMake true; ARecv 6; AHand 7; AMake true; ASend; AMake true; ACancel; AExit; ADrain; AEnd] = Some s /\
  delivered s = [Proc 0; Fail; Proc 2] /\ killed s = [Proc 4; Proc 3] /\ ph s = Ended.
Proof. exists (Prep 1 [] Making false [] [] []). eexists. split; [reflexivity|]. split; [vm_compute; reflexivity|]. repeat split. Qed.
