From Verif Require Import BaseLemmas ListLemmas Breakpoints.
From Coq Require Import Sorted Permutation.

Definition incr (l : list Z) : Prop := StronglySorted Z.lt l.

Lemma incr_nth l : incr l -> forall i j, (i < j < length l)%nat -> nth i l 0 < nth j l 0.
Proof.
  intros H. induction H as [|x t HS IH HF]; intros i j L; cbn [length] in L; [lia|].
  destruct j as [|j]; [lia|]. destruct i as [|i]; cbn [nth].
  - rewrite Forall_forall in HF. apply HF, nth_In. lia.
  - apply IH. lia.
Qed.

Lemma nth_incr l : (forall i, (S i < length l)%nat -> nth i l 0 < nth (S i) l 0) -> incr l.
Proof.
  induction l as [|x t IH]; intros H; [constructor|]. assert (I : incr t) by (apply IH; intros i L; apply (H (S i)); cbn; lia).
  constructor; [exact I|]. destruct t as [|y t]; [constructor|]. pose proof (H O ltac:(cbn; lia)) as XY. cbn in XY.
  constructor; [exact XY|]. inversion I as [|? ? _ F]; subst. eapply Forall_impl; [|exact F]. cbn. intros; lia.
Qed.

(* ---- search ---- *)
Lemma go_search_spec f n : (forall i j, (i <= j < n)%nat -> f i = true -> f j = true) ->
  forall fuel i j, (i <= j <= n)%nat -> (j - i <= fuel)%nat ->
  (forall h, (h < i)%nat -> f h = false) -> (forall h, (j <= h < n)%nat -> f h = true) ->
  let r := go_search fuel f i j in (i <= r <= j)%nat /\ (forall h, (h < r)%nat -> f h = false) /\ (forall h, (r <= h < n)%nat -> f h = true).
Proof.
  intros M. induction fuel as [|k IH]; intros i j B F L R; cbn [go_search].
  - split; [lia|]. split; [assumption|]. intros h X. apply R. lia.
  - destruct (Nat.ltb_spec i j) as [X|X]; [|split; [lia|split; [assumption|intros; apply R; lia]]].
    assert (D : (i <= Nat.div2 (i + j) < j)%nat).
    { rewrite Nat.div2_div. pose proof (Nat.div_mod (i + j) 2). pose proof (Nat.mod_upper_bound (i + j) 2). lia. }
    destruct (f (Nat.div2 (i + j))) eqn:Q; cbn [negb].
    + destruct (IH i (Nat.div2 (i + j))) as (A & B1 & C); [lia|lia|assumption| |split; [lia|split; assumption]].
      intros h H. apply (M (Nat.div2 (i + j))); [lia|assumption].
    + destruct (IH (S (Nat.div2 (i + j))) j) as (A & B1 & C); [lia|lia| |assumption|split; [lia|split; assumption]].
      intros h H. destruct (f h) eqn:E; [|reflexivity]. rewrite (M h (Nat.div2 (i + j))) in Q; [discriminate|lia|assumption].
Qed.

Lemma search_spec a x : incr a -> let i := searchUint64 a x in
  (i <= length a)%nat /\ Forall (fun y => y < x) (firstn i a) /\ Forall (fun y => x <= y) (skipn i a).
Proof.
  intros I. cbn zeta. unfold searchUint64.
  destruct (go_search_spec (fun i => nth i a 0 >=? x) (length a)) with (fuel := length a) (i := O) (j := length a) as (A & B & C); try lia.
  { intros i j L H. destruct (Nat.eq_dec i j) as [->|]; [assumption|]. pose proof (incr_nth _ I i j). lia. }
  set (r := go_search _ _ _ _) in *. split; [lia|]. split.
  - apply Forall_forall. intros y Y. apply (In_nth _ _ 0) in Y. destruct Y as (h & L & <-). rewrite firstn_length in L.
    specialize (B h ltac:(lia)). rewrite nth_firstn_lt by lia. lia.
  - apply Forall_forall. intros y Y. apply (In_nth _ _ 0) in Y. destruct Y as (h & L & <-). rewrite skipn_length in L.
    specialize (C (r + h)%nat ltac:(lia)). rewrite nth_skipn_add. lia.
Qed.

(* the search finds x exactly if it is there *)
Lemma search_found a x : incr a -> let i := searchUint64 a x in
  (In x a <-> ((i < length a)%nat /\ nth i a 0 = x)).
Proof.
  intros I i. destruct (search_spec a x I) as (A & B & C). fold i in A, B, C. split.
  - intros H. rewrite <- (firstn_skipn i a) in H. apply in_app_iff in H. destruct H as [H|H].
    { rewrite Forall_forall in B. apply B in H. lia. }
    assert (L : (i < length a)%nat). { destruct (Nat.eq_dec i (length a)) as [E|]; [|lia]. rewrite E, skipn_all in H. destruct H. }
    split; [exact L|]. pose proof (firstn_skipn i a) as E. destruct (skipn i a) as [|y t] eqn:S; [destruct H|].
    assert (N : nth i a 0 = y). { replace i with (i + 0)%nat at 1 by lia. rewrite <- nth_skipn_add, S. reflexivity. }
    rewrite N. destruct H as [H|H]; [assumption|]. pose proof (Forall_inv C) as Y. cbn beta in Y.
    assert (I2 : incr (y :: t)). { rewrite <- E in I. clear - I. revert I. generalize (firstn i a). induction l; intros I; [assumption|]. inversion I; auto. }
    apply StronglySorted_inv in I2. destruct I2 as [_ FF]. rewrite Forall_forall in FF. apply FF in H. lia.
  - intros [L N]. apply (nth_In a 0) in L. now rewrite N in L.
Qed.

Lemma incr_app a b : incr a -> incr b -> (forall x y, In x a -> In y b -> x < y) -> incr (a ++ b).
Proof.
  intros HA HB H. induction HA as [|x t HS IH HF]; [assumption|]. cbn. constructor.
  - apply IH. intros; apply H; [now right|assumption].
  - apply Forall_app. split; [assumption|]. apply Forall_forall. intros y Y. apply H; [now left|assumption].
Qed.
Lemma incr_firstn a n : incr a -> incr (firstn n a).
Proof. intros I. revert n. induction I as [|x t HS IH HF]; intros [|n]; cbn; try (now constructor). constructor; [apply IH|now apply Forall_firstn]. Qed.
Lemma incr_skipn a n : incr a -> incr (skipn n a).
Proof. intros I. revert n. induction I as [|x t HS IH HF]; intros [|n]; cbn; try (now constructor). apply IH. Qed.

Lemma nth_split_skipn a i : (i < length a)%nat -> skipn i a = nth i a 0 :: skipn (S i) a.
Proof. revert i. induction a as [|x t IH]; intros [|i] L; cbn in *; try lia; [reflexivity|]. apply IH. lia. Qed.

Lemma union_loop_spec req : forall b m, incr b ->
  let r := union_loop req b m in
  incr (fst r) /\ (forall x, In x (fst r) <-> In x b \/ In x req) /\ (length (fst r) <= length b + length req)%nat /\
  (snd r = false -> fst r = b).
Proof.
  induction req as [|x t IH]; intros b m I; cbn [union_loop].
  - cbn. split; [assumption|]. split; [tauto|]. split; [lia|auto].
  - destruct (search_spec b x I) as (A & B & C). pose proof (search_found b x I) as SF. cbn zeta in *.
    set (i := searchUint64 b x) in *.
    destruct (Nat.eqb i (length b) || negb (nth i b 0 =? x)) eqn:Q.
    + assert (NI : ~ In x b). { intros H. apply SF in H. lia. }
      set (b' := firstn i b ++ [x] ++ skipn i b).
      assert (I' : incr b').
      { unfold b'. apply incr_app; [now apply incr_firstn| |].
        - cbn. constructor; [now apply incr_skipn|]. rewrite Forall_forall in C |- *. intros y Y. specialize (C y Y).
          assert (y <> x); [|lia]. intros ->. apply NI. rewrite <- (firstn_skipn i b). apply in_app_iff. auto.
        - intros y z Y W. rewrite Forall_forall in B, C. apply B in Y. destruct W as [W|W]; [subst z; exact Y|]. apply C in W. cbn beta in *. lia. }
      destruct (IH b' true I') as (R1 & R2 & R3 & R4). split; [exact R1|]. split; [|split].
      * intros y. rewrite R2. unfold b'. cbn [In]. rewrite <- (firstn_skipn i b) at 3. rewrite !in_app_iff. cbn. tauto.
      * assert (LB : (length b' <= S (length b))%nat) by (unfold b'; rewrite !app_length, firstn_length, skipn_length; cbn [length]; lia). cbn zeta in R3. cbn [length]. lia.
      * clear - NI. intros E. exfalso. revert E. assert (G : forall l b, snd (union_loop l b true) = true).
        { induction l as [|y l IH]; intros bb; cbn; [reflexivity|]. destruct (_ || _); apply IH. } rewrite G. discriminate.
    + assert (HI : In x b). { apply SF. lia. }
      destruct (IH b m I) as (R1 & R2 & R3 & R4). split; [exact R1|]. split; [|split; [cbn; lia|exact R4]].
      intros y. rewrite R2. cbn. split; [tauto|]. intros [H|[<-|H]]; auto.
Qed.

Lemma complement_loop_spec req : forall b m, incr b ->
  let r := complement_loop req b m in
  incr (fst r) /\ (forall x, In x (fst r) <-> In x b /\ ~ In x req) /\ (length (fst r) <= length b)%nat /\
  (snd r = false -> fst r = b).
Proof.
  induction req as [|x t IH]; intros b m I; cbn [complement_loop].
  - cbn. split; [assumption|]. split; [tauto|]. split; [lia|auto].
  - pose proof (search_found b x I) as SF. cbn zeta in SF. set (i := searchUint64 b x) in *.
    destruct (Nat.ltb i (length b) && (nth i b 0 =? x)) eqn:Q.
    + assert (L : (i < length b)%nat) by lia. assert (N : nth i b 0 = x) by lia.
      set (b' := firstn i b ++ skipn (S i) b).
      assert (E : b = firstn i b ++ x :: skipn (S i) b) by (rewrite <- N, <- nth_split_skipn, firstn_skipn by assumption; reflexivity).
      assert (ND : NoDup b). { clear - I. induction I as [|x t HS IH HF]; constructor; auto. intros H. rewrite Forall_forall in HF. apply HF in H. lia. }
      assert (NX : ~ In x b'). { unfold b'. rewrite E in ND. now apply NoDup_remove_2 in ND. }
      assert (I' : incr b').
      { unfold b'. apply incr_app; [now apply incr_firstn|now apply incr_skipn|].
        intros y z Y Z. apply (In_nth _ _ 0) in Y, Z. destruct Y as (h & Lh & <-), Z as (g & Lg & <-). rewrite firstn_length in Lh. rewrite skipn_length in Lg.
        rewrite nth_firstn_lt by lia. rewrite nth_skipn_add. apply incr_nth; [assumption|lia]. }
      destruct (IH b' true I') as (R1 & R2 & R3 & R4). split; [exact R1|]. split; [|split].
      * intros y. rewrite R2. rewrite E. unfold b'. rewrite !in_app_iff. cbn [In]. split.
        -- intros [H1 H2]. split; [tauto|]. intros [<-|H3]; [|tauto]. apply NX. unfold b'. rewrite in_app_iff. tauto.
        -- intros [H1 H2]. split; [|tauto]. destruct H1 as [H1|[H1|H1]]; tauto.
      * assert (LB : (length b' <= length b)%nat) by (unfold b'; rewrite app_length, firstn_length, skipn_length; lia). cbn zeta in R3. lia.
      * intros EE. exfalso. revert EE. assert (G : forall l b, snd (complement_loop l b true) = true).
        { clear. induction l as [|y l IH]; intros bb; cbn; [reflexivity|]. destruct (_ && _); apply IH. } rewrite G. discriminate.
    + destruct (IH b m I) as (R1 & R2 & R3 & R4). split; [exact R1|]. split; [|split; [lia|exact R4]].
      intros y. rewrite R2. cbn. split; [|tauto]. intros [H1 H2]. split; [assumption|]. intros [<-|H3]; [|tauto]. apply SF in H1. lia.
Qed.

(* ---- sort and dedup ---- *)
Lemma insert_In x l y : In y (insert x l) <-> y = x \/ In y l.
Proof. induction l as [|z t IH]; cbn; [intuition|]. destruct (x <=? z); cbn; rewrite ?IH; intuition. Qed.
Lemma sort_In l y : In y (isort l) <-> In y l.
Proof. induction l as [|x t IH]; cbn; [tauto|]. rewrite insert_In, IH. intuition. Qed.
Lemma insert_length x l : length (insert x l) = S (length l).
Proof. induction l as [|z t IH]; cbn; [reflexivity|]. destruct (x <=? z); cbn; lia. Qed.
Lemma sort_length l : length (isort l) = length l.
Proof. induction l as [|x t IH]; cbn; [reflexivity|]. rewrite insert_length. lia. Qed.
Definition nondecr (l : list Z) : Prop := StronglySorted Z.le l.
Lemma insert_sorted x l : nondecr l -> nondecr (insert x l).
Proof.
  intros H. induction H as [|z t HS IH HF]; cbn; [repeat constructor|]. destruct (Z.leb_spec x z) as [L|L].
  - constructor; [now constructor|]. constructor; [assumption|]. eapply Forall_impl; [|exact HF]. cbn. intros; lia.
  - constructor; [assumption|]. apply Forall_forall. intros y Y. apply insert_In in Y. rewrite Forall_forall in HF. destruct Y as [->|Y]; [lia|auto].
Qed.
Lemma sort_sorted l : nondecr (isort l).
Proof. induction l; cbn; [constructor|now apply insert_sorted]. Qed.
Lemma nondecr_nth l : nondecr l -> forall i j, (i <= j < length l)%nat -> nth i l 0 <= nth j l 0.
Proof.
  intros H. induction H as [|x t HS IH HF]; intros i j L; cbn [length] in L; [lia|].
  destruct j as [|j]; [destruct i; [cbn; lia|lia]|]. destruct i as [|i]; cbn [nth].
  - rewrite Forall_forall in HF. apply HF, nth_In. lia.
  - apply IH. lia.
Qed.
Lemma nondecr_drop l i : nondecr l -> nondecr (firstn (i - 1) l ++ skipn i l).
Proof.
  intros H. revert i. induction H as [|x t HS IH HF]; intros i; [destruct i; [constructor|]; rewrite firstn_nil; constructor|].
  destruct i as [|[|i]]; cbn [firstn skipn Nat.sub app]; [now constructor|assumption|].
  replace i with (S i - 1)%nat at 1 by lia. constructor; [apply IH|]. apply Forall_forall. intros y Y.
  rewrite Forall_forall in HF. apply HF. apply in_app_iff in Y. destruct Y as [Y|Y]; [|].
  - eapply firstn_In; exact Y.
  - exact (skipn_In t (S i) y Y).
Qed.

(* dedup from position i: the first i elements are strictly increasing *)
Lemma dedup_spec : forall fuel a i, nondecr a -> (1 <= i)%nat -> (i <= length a \/ length a = 0)%nat -> (length a - i <= fuel)%nat ->
  (forall h, (S h < i)%nat -> nth h a 0 < nth (S h) a 0) ->
  incr (dedup fuel a i) /\ (forall x, In x (dedup fuel a i) <-> In x a) /\ (length (dedup fuel a i) <= length a)%nat.
Proof.
  induction fuel as [|k IH]; intros a i N I L F P; cbn [dedup].
  - split; [|split; [tauto|lia]]. apply nth_incr. intros h H. apply P. lia.
  - destruct (Nat.ltb_spec i (length a)) as [Q|Q]; [|split; [apply nth_incr; intros h H; apply P; lia|split; [tauto|lia]]].
    destruct (Z.eqb_spec (nth (i - 1) a 0) (nth i a 0)) as [E|E].
    + set (a' := firstn (i - 1) a ++ skipn i a).
      assert (LA : length a' = (length a - 1)%nat) by (unfold a'; rewrite app_length, firstn_length, skipn_length; lia).
      destruct (IH a' i) as (R1 & R2 & R3).
      * now apply nondecr_drop.
      * exact I.
      * left. lia.
      * lia.
      * intros h H. unfold a'. rewrite app_nth1 by (rewrite firstn_length; lia). rewrite nth_firstn_lt by lia.
        destruct (Nat.eq_dec (S h) (i - 1)) as [D|D].
        -- rewrite app_nth2 by (rewrite firstn_length; lia). rewrite firstn_length, Nat.min_l by lia.
           replace (S h - (i - 1))%nat with O by lia. rewrite nth_skipn_add, Nat.add_0_r, <- E. replace (i - 1)%nat with (S h) by lia. apply P. lia.
        -- rewrite app_nth1 by (rewrite firstn_length; lia). rewrite nth_firstn_lt by lia. apply P. lia.
      * split; [exact R1|]. split; [|lia]. intros x. rewrite R2. unfold a'.
        assert (EA : a = firstn (i - 1) a ++ nth (i - 1) a 0 :: skipn i a).
        { replace (skipn i a) with (skipn (S (i - 1)) a) by (f_equal; lia). rewrite <- nth_split_skipn, firstn_skipn by lia. reflexivity. }
        split; intros H.
        -- apply in_app_iff in H. destruct H as [H|H]; [eapply firstn_In|eapply skipn_In]; exact H.
        -- rewrite EA in H. apply in_app_iff in H. apply in_app_iff. destruct H as [H|[H|H]]; [now left| |now right].
           right. rewrite <- H, E. rewrite (nth_split_skipn a i) by lia. now left.
    + destruct (IH a (S i)) as (R1 & R2 & R3); [assumption|lia|lia|lia| |auto].
      intros h H. destruct (Nat.eq_dec (S h) i) as [D|D]; [|apply P; lia].
      pose proof (nondecr_nth _ N (i - 1) i). replace h with (i - 1)%nat by lia. replace (S (i - 1)) with i by lia. lia.
Qed.

Lemma sortdedup_spec a : incr (elems (SortDedup a)) /\ (forall x, In x (elems (SortDedup a)) <-> In x (elems a)) /\
  (length (elems (SortDedup a)) <= length (elems a))%nat.
Proof.
  destruct a as [l|]; cbn [SortDedup elems]; [|split; [constructor|split; [tauto|lia]]].
  destruct (dedup_spec (length l) (isort l) 1) as (A & B & C).
  - apply sort_sorted.
  - lia.
  - rewrite sort_length. lia.
  - rewrite sort_length. lia.
  - intros h H. lia.
  - rewrite sort_length in C. split; [exact A|]. split; [|exact C]. intros x. now rewrite B, sort_In.
Qed.

Lemma list_eqb_eq a : forall b, list_eqb a b = true <-> a = b.
Proof.
  induction a as [|x t IH]; intros [|y b]; cbn; split; try discriminate; try reflexivity; intros H.
  - apply andb_prop in H. destruct H as [H1 H2]. apply Z.eqb_eq in H1. apply IH in H2. congruence.
  - injection H as -> ->. rewrite Z.eqb_refl. now apply IH.
Qed.
Lemma deep_equal_eq a b : deep_equal a b = true <-> a = b.
Proof.
  destruct a, b; cbn; split; try discriminate; try reflexivity; intros H.
  - apply list_eqb_eq in H. congruence.
  - apply list_eqb_eq. congruence.
Qed.
Lemma set_breaks_elems old new : elems (set_breaks old new) = elems new.
Proof. unfold set_breaks. destruct (list_eqb (elems old) (elems new)) eqn:E; [now apply list_eqb_eq|reflexivity]. Qed.
