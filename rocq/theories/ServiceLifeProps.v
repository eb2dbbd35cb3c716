(* ServiceLifeProps.v: service instances' life cycles (C114). *)
From Coq Require Import Permutation.
From Verif Require Import BaseLemmas ServiceLifeSpec.

Lemma life_snoc c t k d ok :
  life_of c (t ++ [Call k d ok]) = if Nat.eqb d c then live (life_of c t) (Call k d ok) else life_of c t.
Proof.
  unfold life_of. rewrite filter_app. cbn [filter c_code]. destruct (Nat.eqb d c).
  - now rewrite fold_left_app.
  - now rewrite app_nil_r.
Qed.

Definition alive (s : life) : Prop := s = Created \/ s = Readied \/ s = Started \/ s = Broken.

Lemma each_spec e k l : forall t t' ok, NoDup l -> each e k l t = (t', ok) ->
  forall c, (~ In c l -> life_of c t' = life_of c t) /\
    (In c l -> (ok = true -> life_of c t' = live (life_of c t) (Call k c true)) /\
       (life_of c t' = life_of c t \/ exists b, life_of c t' = live (life_of c t) (Call k c b))).
Proof.
  induction l as [|d l IH]; intros t t' ok ND E c; cbn [each] in E.
  - injection E as <- <-. split; [reflexivity|]. intros [].
  - inversion ND as [|? ? Hd ND']; subst. unfold do_call in E. destruct (answer e (length t)) eqn:A.
    + destruct (IH _ _ _ ND' E c) as [N I]. rewrite life_snoc in N, I. destruct (Nat.eqb_spec d c) as [-> | D].
      * split; [intros H; destruct H; now left|]. intros _. rewrite (N Hd). split; [reflexivity|]. right. now exists true.
      * split; [intros H; apply N; intros X; apply H; now right|]. intros [X|X]; [congruence|]. now apply I.
    + injection E as <- <-. rewrite life_snoc. destruct (Nat.eqb_spec d c) as [-> | D].
      * split; [intros H; destruct H; now left|]. intros _. split; [discriminate|]. right. now exists false.
      * split; [reflexivity|]. intros _. split; [discriminate|]. now left.
Qed.

Lemma stop_all_spec e l : forall t, NoDup l ->
  forall c, (~ In c l -> life_of c (stop_all e l t) = life_of c t) /\
    (In c l -> alive (life_of c t) -> life_of c (stop_all e l t) = Stopped).
Proof.
  induction l as [|d l IH]; intros t ND c; cbn [stop_all]; [split; [reflexivity|intros []]|].
  inversion ND as [|? ? Hd ND']; subst. unfold do_call. cbn [fst].
  destruct (IH (t ++ [Call Stop d (answer e (length t))]) ND' c) as [N I]. rewrite life_snoc in N, I.
  destruct (Nat.eqb_spec d c) as [-> | D].
  - split; [intros H; destruct H; now left|]. intros _ A. rewrite (N Hd).
    destruct A as [-> | [-> | [-> | ->]]]; reflexivity.
  - split; [intros H; apply N; intros X; apply H; now right|]. intros [X|X]; [congruence|]. now apply I.
Qed.

(* The map and the lives agree *)
Definition agree (P : life -> Prop) (m : imap) (t : list call) : Prop :=
  NoDup (i_some m) /\ (forall c, In c (i_some m) -> P (life_of c t)) /\ (forall c, ~ In c (i_some m) -> life_of c t = Nothing).

Lemma agree_weaken (P Q : life -> Prop) m t : (forall s, P s -> Q s) -> agree P m t -> agree Q m t.
Proof. intros W (A & B & C). split; [exact A|]. split; auto. Qed.

(* Creating one more *)
Lemma agree_create (P : life -> Prop) c m t : P Created -> agree P m t -> ~ In c (i_some m) ->
  agree P (Imap (i_some m ++ [c]) (i_nil m)) (t ++ [Call Create c true]).
Proof.
  intros PC (A & B & C) N. split; [|split]; cbn [i_some].
  - apply NoDup_rev in A. rewrite <- (rev_involutive (i_some m ++ [c])). apply NoDup_rev. rewrite rev_app_distr. cbn [rev app].
    constructor; [now rewrite <- in_rev|exact A].
  - intros d D. rewrite life_snoc. destruct (Nat.eqb_spec c d) as [<- | X].
    + rewrite (C c N). exact PC.
    + apply in_app_or in D. destruct D as [D|[D|[]]]; [auto|congruence].
  - intros d D. rewrite life_snoc. destruct (Nat.eqb_spec c d) as [<- | X].
    + destruct D. apply in_or_app. right. now left.
    + apply C. intros Y. apply D. apply in_or_app. now left.
Qed.

(* A call of an existing instance *)
Lemma agree_call (P Q : life -> Prop) k c ok m t : (forall s, P s -> Q s) -> agree P m t -> In c (i_some m) ->
  (P (life_of c t) -> Q (live (life_of c t) (Call k c ok))) -> agree Q m (t ++ [Call k c ok]).
Proof.
  intros W (A & B & C) I H. split; [exact A|split].
  - intros d D. rewrite life_snoc. destruct (Nat.eqb_spec c d) as [<- | X]; auto.
  - intros d D. rewrite life_snoc. destruct (Nat.eqb_spec c d) as [<- | X]; [contradiction|auto].
Qed.

Lemma agree_failed_create (P : life -> Prop) c m t : agree P m t -> ~ In c (i_some m) -> agree P m (t ++ [Call Create c false]).
Proof.
  intros (A & B & C) N. split; [exact A|split].
  - intros d D. rewrite life_snoc. destruct (Nat.eqb_spec c d) as [<- | X]; [contradiction|auto].
  - intros d D. rewrite life_snoc. destruct (Nat.eqb_spec c d) as [<- | X]; [|auto]. now rewrite (C c N).
Qed.

Lemma create_all_spec e l : forall m t t' r, NoDup l -> (forall c, In c l -> ~ In c (i_some m)) ->
  agree (eq Created) m t -> create_all e l m t = (t', r) ->
  exists m', agree (eq Created) m' t' /\ (r = Some m' \/ r = None).
Proof.
  induction l as [|d l IH]; intros m t t' r ND F A E; cbn [create_all] in E.
  - injection E as <- <-. exists m. auto.
  - inversion ND as [|? ? Hd ND']; subst. pose proof (F d (or_introl eq_refl)) as Fd.
    destruct (has_factory e d).
    + unfold do_call in E. destruct (answer e (length t)).
      * apply (IH _ _ _ _ ND') in E; [exact E| |now apply agree_create].
        intros c Hc. cbn [i_some]. intros X. apply in_app_or in X. destruct X as [X|[X|[]]]; [apply (F c (or_intror Hc) X)|congruence].
      * injection E as <- <-. exists m. split; [now apply agree_failed_create|now right].
    + apply (IH (Imap (i_some m) (i_nil m ++ [d])) _ _ _ ND') in E; [exact E| |exact A].
      intros c Hc. cbn [i_some]. apply F. now right.
Qed.

Lemma each_agree e k (p q b : life) m t l t' ok :
  Permutation l (i_some m) -> agree (eq p) m t -> each e k l t = (t', ok) ->
  live p (Call k 0 true) = q -> live p (Call k 0 false) = b ->
  agree (fun s => s = p \/ s = q \/ s = b) m t' /\ (ok = true -> agree (eq q) m t').
Proof.
  intros Pm (A & B & C) E Hq Hb.
  assert (ND : NoDup l) by (eapply Permutation_NoDup; [apply Permutation_sym, Pm|exact A]).
  pose proof (each_spec e k l t t' ok ND E) as S.
  assert (K : forall c b0, live p (Call k c b0) = if b0 then q else b) by (intros c []; [rewrite <- Hq|rewrite <- Hb]; reflexivity).
  split; [|intros ->]; (split; [exact A|]); split; intros c I; destruct (S c) as [N Y].
  - apply (Permutation_in _ (Permutation_sym Pm)) in I as I'. destruct (Y I') as [_ [H | [b0 H]]]; rewrite H.
    + left. symmetry. now apply B.
    + rewrite <- (B c I), K. destruct b0; auto.
  - rewrite N; [now apply C|]. intros X. apply I. now apply (Permutation_in _ Pm).
  - apply (Permutation_in _ (Permutation_sym Pm)) in I as I'. destruct (Y I') as [H _]. rewrite (H eq_refl), <- (B c I), K. reflexivity.
  - rewrite N; [now apply C|]. intros X. apply I. now apply (Permutation_in _ Pm).
Qed.

Section Perm.
  Variable e : env.
  Hypothesis SH : forall n l, Permutation (shuffle e n l) l.

  Lemma start_serving_spec n t r : start_serving e n = (t, r) ->
    exists m, agree alive m t /\ ((r = Some m /\ agree (eq Readied) m t) \/ r = None).
  Proof.
    unfold start_serving. intros E. destruct (create_all e (seq 0 n) (Imap [] []) []) as [t0 r0] eqn:C.
    apply create_all_spec in C; [|apply seq_NoDup|intros c _ []|].
    2: { split; [constructor|]. split; [intros c []|reflexivity]. }
    destruct C as (m & A & D).
    assert (W : agree alive m t0) by (eapply agree_weaken; [|exact A]; intros s <-; now left).
    destruct D as [-> | ->].
    - destruct (each e Ready (shuffle e (length t0) (i_some m)) t0) as [t1 ok] eqn:R. injection E as <- <-.
      destruct (each_agree e Ready Created Readied Broken m t0 _ t1 ok (SH _ _) A R eq_refl eq_refl) as [X Y].
      exists m. split; [eapply agree_weaken; [|exact X]; unfold alive; intros s [-> | [-> | ->]]; auto|].
      destruct ok; [left; auto|now right].
    - injection E as <- <-. exists m. auto.
  Qed.

  Lemma serve_one_spec c m t t' m' ok : agree (eq Started) m t -> serve_one e c m t = (t', m', ok) ->
    agree alive m' t' /\ (ok = true -> agree (eq Started) m' t').
  Proof.
    intros A E. assert (W : forall s, Started = s -> alive s) by (intros s <-; unfold alive; auto).
    unfold serve_one, do_call in E. destruct (existsb (Nat.eqb c) (i_some m)) eqn:X.
    - apply existsb_exists in X. destruct X as (d & I & D). apply Nat.eqb_eq in D. subst d.
      injection E as <- <- <-. destruct (answer e (length t)).
      + assert (Y : agree (eq Started) m (t ++ [Call Handle c true])) by (eapply agree_call; [|exact A|exact I|]; [auto|intros <-; reflexivity]).
        split; [eapply agree_weaken; eassumption|auto].
      + split; [|discriminate]. eapply agree_call; [exact W|exact A|exact I|]. intros <-. unfold alive. auto.
    - assert (N : ~ In c (i_some m)).
      { intros I. assert (existsb (Nat.eqb c) (i_some m) = true) by (apply existsb_exists; exists c; split; [exact I|apply Nat.eqb_refl]). congruence. }
      destruct (existsb (Nat.eqb c) (i_nil m)).
      + injection E as <- <- <-. split; [eapply agree_weaken; eassumption|auto].
      + destruct (has_factory e c).
        2: { injection E as <- <- <-. split; [eapply agree_weaken; eassumption|auto]. }
        destruct (answer e (length t)) eqn:A1.
        2: { injection E as <- <- <-. split; [|discriminate]. apply agree_failed_create; [|exact N]. eapply agree_weaken; eassumption. }
        (* Lives after each of the calls *)
        assert (Z : forall s t1, life_of c t1 = s -> (forall d, d <> c -> life_of d t1 = life_of d t) ->
                    forall Q : life -> Prop, Q Started -> Q s -> agree Q (Imap (i_some m ++ [c]) (i_nil m)) t1).
        { intros s t1 H1 H2 Q Q1 Q2. destruct A as (B1 & B2 & B3). split; [|split]; cbn [i_some].
          - apply NoDup_rev in B1. rewrite <- (rev_involutive (i_some m ++ [c])). apply NoDup_rev. rewrite rev_app_distr. cbn [rev app].
            constructor; [now rewrite <- in_rev|exact B1].
          - intros d I. destruct (Nat.eq_dec d c) as [-> | Nd]; [now rewrite H1|]. rewrite (H2 d Nd).
            apply in_app_or in I. destruct I as [I|[I|[]]]; [now rewrite <- (B2 d I)|congruence].
          - intros d I. destruct (Nat.eq_dec d c) as [-> | Nd]; [destruct I; apply in_or_app; right; now left|].
            rewrite (H2 d Nd). apply B3. intros Y. apply I. apply in_or_app. now left. }
        pose proof A as (_ & _ & B3). specialize (B3 c N).
        assert (O : forall t1 k ok1, (forall d, d <> c -> life_of d t1 = life_of d t) ->
                    forall d, d <> c -> life_of d (t1 ++ [Call k c ok1]) = life_of d t).
        { intros t1 k ok1 H d Nd. rewrite life_snoc. destruct (Nat.eqb_spec c d); [congruence|auto]. }
        assert (L : forall t1 k ok1, life_of c (t1 ++ [Call k c ok1]) = live (life_of c t1) (Call k c ok1)).
        { intros t1 k ok1. rewrite life_snoc. now rewrite Nat.eqb_refl. }
        assert (S1 : Started = Started) by reflexivity. assert (S2 : alive Started) by (unfold alive; auto).
        destruct (answer e (length (t ++ [_]))) eqn:A2.
        2: { injection E as <- <- <-. split; [|discriminate]. eapply Z; [reflexivity|auto|exact S2|].
             rewrite !L, B3. unfold alive. cbn. auto. }
        destruct (answer e (length ((t ++ [_]) ++ [_]))) eqn:A3.
        2: { injection E as <- <- <-. split; [|discriminate]. eapply Z; [reflexivity|auto|exact S2|].
             rewrite !L, B3. unfold alive. cbn. auto. }
        injection E as <- <- <-. destruct (answer e (length (((t ++ [_]) ++ [_]) ++ [_]))).
        * split; [|intros _]; (eapply Z; [reflexivity|auto 8|auto|]); rewrite !L, B3; cbn; auto.
        * split; [|discriminate]. eapply Z; [reflexivity|auto 8|auto|]. rewrite !L, B3. unfold alive. cbn. auto.
  Qed.

  Lemma serve_packets_spec l : forall m t t' m', agree (eq Started) m t -> serve_packets e l m t = (t', m') -> agree alive m' t'.
  Proof.
    induction l as [|c l IH]; intros m t t' m' A E; cbn [serve_packets] in E.
    - injection E as <- <-. eapply agree_weaken; [|exact A]. intros s <-. unfold alive. auto.
    - destruct (serve_one e c m t) as [[t1 m1] ok] eqn:S. destruct (serve_one_spec c m t t1 m1 ok A S) as [X Y]. destruct ok.
      + eapply IH; [|exact E]. auto.
      + now injection E as <- <-.
  Qed.

  Lemma serve_spec l m t t' m' : agree (eq Readied) m t -> serve e l m t = (t', m') -> agree alive m' t'.
  Proof.
    intros A E. unfold serve in E. destruct (each e Start (shuffle e (length t) (i_some m)) t) as [t1 ok] eqn:R.
    destruct (each_agree e Start Readied Started Broken m t _ t1 ok (SH _ _) A R eq_refl eq_refl) as [X Y]. destruct ok.
    - eapply serve_packets_spec; [|exact E]. auto.
    - injection E as <- <-. eapply agree_weaken; [|exact X]. unfold alive. intros s [-> | [-> | ->]]; auto.
  Qed.

  Lemma run_services_spec n l t ok : run_services e n l = (t, ok) ->
    exists m, NoDup (i_some m) /\ (forall c, In c (i_some m) -> if ok then life_of c t = Stopped else alive (life_of c t)) /\
      forall c, ~ In c (i_some m) -> life_of c t = Nothing.
  Proof.
    unfold run_services. intros E. destruct (start_serving e n) as [t0 r] eqn:S.
    destruct (start_serving_spec n t0 r S) as (m & A & [(-> & B) | ->]).
    - destruct (serve e l m t0) as [t1 m1] eqn:V. injection E as <- <-.
      destruct (serve_spec l m t0 t1 m1 B V) as (ND & I & N). exists m1. split; [exact ND|].
      assert (ND' : NoDup (shuffle e (length t1) (i_some m1))) by (eapply Permutation_NoDup; [apply Permutation_sym, SH|exact ND]).
      split; intros c H; destruct (stop_all_spec e _ t1 ND' c) as [X Y].
      + apply Y; [|auto]. eapply Permutation_in; [apply Permutation_sym, SH|exact H].
      + rewrite X; [auto|]. intros Z. apply H. eapply Permutation_in; [apply SH|exact Z].
    - injection E as <- <-. exists m. destruct A as (A1 & A2 & A3). auto.
  Qed.
End Perm.

(* Whatever fails, and in whatever order instances are iterated over: calls to service instances come in the right order (created
   once per code, ready, started, packets, and nothing after a failure except being stopped once), ... *)
Theorem instances_live_properly e n packets :
  (forall k l, Permutation (shuffle e k l) l) ->
  forall c, life_of c (fst (run_services e n packets)) <> Wrong.
Proof.
  intros SH c. destruct (run_services e n packets) as [t ok] eqn:E. cbn [fst].
  destruct (run_services_spec e SH n packets t ok E) as (m & _ & I & N).
  destruct (in_dec Nat.eq_dec c (i_some m)) as [H|H].
  - specialize (I c H). destruct ok; [congruence|]. destruct I as [-> | [-> | [-> | ->]]]; discriminate.
  - rewrite (N c H). discriminate.
Qed.
Print Assumptions instances_live_properly.

(* ... and if the services could be started, then every created instance has been stopped. *)
Theorem created_instances_are_stopped_partial e n packets :
  (forall k l, Permutation (shuffle e k l) l) -> snd (run_services e n packets) = true ->
  forall c, In (Call Create c true) (fst (run_services e n packets)) -> life_of c (fst (run_services e n packets)) = Stopped.
Proof.
  intros SH. destruct (run_services e n packets) as [t ok] eqn:E. cbn [fst snd]. intros -> c H.
  destruct (run_services_spec e SH n packets t true E) as (m & _ & I & N).
  destruct (in_dec Nat.eq_dec c (i_some m)) as [X|X]; [now apply I|]. specialize (N c X). exfalso.
  unfold life_of in N.
  assert (G : forall l s, In (Call Create c true) l -> fold_left live l s <> Nothing).
  { assert (G0 : forall l s, s <> Nothing -> fold_left live l s <> Nothing).
    { induction l as [|y l IH]; intros s Hs; [exact Hs|]. cbn [fold_left]. apply IH.
      destruct s, y as [[] d []]; cbn; congruence. }
    induction l as [|y l IH]; intros s []; cbn [fold_left].
    - subst y. apply G0. destruct s; cbn; discriminate.
    - now apply IH. }
  revert N. apply G. apply filter_In. split; [exact H|]. apply Nat.eqb_refl.
Qed.
Print Assumptions created_instances_are_stopped_partial.

Lemma each_kind e k l : forall t t' ok, each e k l t = (t', ok) -> forall x, In x t' -> In x t \/ c_kind x = k.
Proof.
  induction l as [|d l IH]; intros t t' ok E x H; cbn [each] in E; [injection E as <- <-; now left|].
  unfold do_call in E. destruct (answer e (length t)).
  - destruct (IH _ _ _ E x H) as [X|X]; [|now right]. apply in_app_or in X. destruct X as [X|[<- |[]]]; auto.
  - injection E as <- <-. apply in_app_or in H. destruct H as [X|[<- |[]]]; auto.
Qed.

Lemma create_kind e l : forall m t t' r, create_all e l m t = (t', r) -> forall x, In x t' -> In x t \/ c_kind x = Create.
Proof.
  induction l as [|d l IH]; intros m t t' r E x H; cbn [create_all] in E; [injection E as <- <-; now left|].
  destruct (has_factory e d); [|eauto]. unfold do_call in E. destruct (answer e (length t)).
  - destruct (IH _ _ _ _ E x H) as [X|X]; [|now right]. apply in_app_or in X. destruct X as [X|[<- |[]]]; auto.
  - injection E as <- <-. apply in_app_or in H. destruct H as [X|[<- |[]]]; auto.
Qed.

(* If one of several restored services can't be started, then those created before are never stopped. *)
Theorem failed_start_leaks_instances_refuted e n packets :
  snd (run_services e n packets) = false -> forall x, In x (fst (run_services e n packets)) -> c_kind x <> Stop.
Proof.
  unfold run_services. destruct (start_serving e n) as [t r] eqn:S. destruct r as [m|].
  - destruct (serve e packets m t). discriminate.
  - intros _ x H. cbn [fst] in H. unfold start_serving in S. destruct (create_all e (seq 0 n) (Imap [] []) []) as [t0 [m|]] eqn:C.
    + destruct (each e Ready (shuffle e (length t0) (i_some m)) t0) as [t1 ok] eqn:R. injection S as <- _.
      destruct (each_kind e Ready _ t0 t1 ok R x H) as [X|X]; [|congruence].
      destruct (create_kind e _ _ _ _ _ C x X) as [[]|Y]. congruence.
    + injection S as <-. destruct (create_kind e _ _ _ _ _ C x H) as [[]|Y]. congruence.
Qed.
Print Assumptions failed_start_leaks_instances_refuted.

(* Calls only to available services *)
Definition fine (e : env) (t : list call) : Prop := Forall (fun x => has_factory e (c_code x) = true) t.
Definition fine_map (e : env) (m : imap) : Prop := Forall (fun c => has_factory e c = true) (i_some m).

Lemma fine_snoc e t k c ok : fine e t -> has_factory e c = true -> fine e (t ++ [Call k c ok]).
Proof. intros F H. apply Forall_app. split; [exact F|]. now repeat constructor. Qed.

Lemma each_fine e k l : forall t t' ok, each e k l t = (t', ok) -> Forall (fun c => has_factory e c = true) l -> fine e t -> fine e t'.
Proof.
  induction l as [|d l IH]; intros t t' ok E L F; cbn [each] in E; [now injection E as <- <-|].
  inversion L; subst. unfold do_call in E. destruct (answer e (length t)).
  - eapply IH; [exact E|assumption|]. now apply fine_snoc.
  - injection E as <- <-. now apply fine_snoc.
Qed.

Lemma shuffled e (SH : forall k l, Permutation (shuffle e k l) l) n m :
  fine_map e m -> Forall (fun c => has_factory e c = true) (shuffle e n (i_some m)).
Proof. intros F. eapply Permutation_Forall; [apply Permutation_sym, SH|exact F]. Qed.

Lemma fine_map_snoc e m c : fine_map e m -> has_factory e c = true -> fine_map e (Imap (i_some m ++ [c]) (i_nil m)).
Proof. intros F H. apply Forall_app. split; [exact F|]. now repeat constructor. Qed.

Lemma create_fine e l : forall m t t' r, create_all e l m t = (t', r) -> fine_map e m -> fine e t ->
  fine e t' /\ forall m', r = Some m' -> fine_map e m'.
Proof.
  induction l as [|d l IH]; intros m t t' r E M F; cbn [create_all] in E.
  - injection E as <- <-. split; [exact F|]. now intros m' [= <-].
  - destruct (has_factory e d) eqn:H.
    + unfold do_call in E. destruct (answer e (length t)).
      * eapply IH; [exact E|now apply fine_map_snoc|now apply fine_snoc].
      * injection E as <- <-. split; [now apply fine_snoc|discriminate].
    + eapply IH; [exact E|exact M|exact F].
Qed.

Lemma serve_one_fine e c m t t' m' ok : serve_one e c m t = (t', m', ok) -> fine_map e m -> fine e t -> fine e t' /\ fine_map e m'.
Proof.
  intros E M F. unfold serve_one, do_call in E. destruct (existsb (Nat.eqb c) (i_some m)) eqn:X.
  - apply existsb_exists in X. destruct X as (d & I & D). apply Nat.eqb_eq in D. subst d. injection E as <- <- <-.
    split; [|exact M]. apply fine_snoc; [exact F|]. unfold fine_map in M. rewrite Forall_forall in M. now apply M.
  - destruct (existsb (Nat.eqb c) (i_nil m)); [injection E as <- <- <-; auto|].
    destruct (has_factory e c) eqn:H; [|injection E as <- <- <-; auto].
    repeat match type of E with
    | (if ?b then _ else _) = _ => destruct b
    end; injection E as <- <- <-; (split; [repeat apply fine_snoc; auto|auto using fine_map_snoc]).
Qed.

Lemma serve_packets_fine e l : forall m t t' m', serve_packets e l m t = (t', m') -> fine_map e m -> fine e t -> fine e t' /\ fine_map e m'.
Proof.
  induction l as [|c l IH]; intros m t t' m' E M F; cbn [serve_packets] in E; [now injection E as <- <-|].
  destruct (serve_one e c m t) as [[t1 m1] ok] eqn:S. destruct (serve_one_fine e c m t t1 m1 ok S M F) as [X Y]. destruct ok.
  - eapply IH; eauto.
  - now injection E as <- <-.
Qed.

Lemma stop_fine e l : forall t, Forall (fun c => has_factory e c = true) l -> fine e t -> fine e (stop_all e l t).
Proof.
  induction l as [|c l IH]; intros t L F; cbn [stop_all]; [exact F|]. inversion L; subst. apply IH; [assumption|].
  cbn [do_call fst]. now apply fine_snoc.
Qed.

(* No calls are made for a service that isn't available. *)
Theorem unavailable_services_get_no_calls e n packets x :
  (forall k l, Permutation (shuffle e k l) l) -> In x (fst (run_services e n packets)) -> has_factory e (c_code x) = true.
Proof.
  intros SH I. assert (G : fine e (fst (run_services e n packets))).
  { unfold run_services, start_serving. destruct (create_all e (seq 0 n) (Imap [] []) []) as [t r] eqn:C.
    destruct (create_fine e _ _ _ _ _ C ltac:(constructor) ltac:(constructor)) as [F M]. destruct r as [m|]; [|exact F].
    specialize (M m eq_refl). destruct (each e Ready (shuffle e (length t) (i_some m)) t) as [t1 ok] eqn:R.
    pose proof (each_fine e Ready _ _ _ _ R (shuffled e SH _ m M) F) as F1. destruct ok; [|exact F1].
    destruct (serve e packets m t1) as [t2 m2] eqn:S. unfold serve in S.
    destruct (each e Start (shuffle e (length t1) (i_some m)) t1) as [t3 ok] eqn:R2.
    pose proof (each_fine e Start _ _ _ _ R2 (shuffled e SH _ m M) F1) as F2.
    assert (FM : fine e t2 /\ fine_map e m2).
    { destruct ok; [|injection S as <- <-; auto]. eapply serve_packets_fine; eauto. }
    cbn [fst]. apply stop_fine; [apply shuffled; [exact SH|apply FM]|apply FM]. }
  unfold fine in G. rewrite Forall_forall in G. now apply G.
Qed.
Print Assumptions unavailable_services_get_no_calls.

(* Service 1 has no factory *)
Definition ex_env (fail : nat) : env :=
  Env (fun i => negb (Nat.eqb i fail)) (fun k l => if Nat.even k then l else rev l) (fun c => negb (Nat.eqb c 1)).
Example ex_env_ok fail : forall k l, Permutation (shuffle (ex_env fail) k l) l.
Proof. intros k l. cbn [shuffle ex_env]. destruct (Nat.even k); [apply Permutation_refl|apply Permutation_sym, Permutation_rev]. Qed.
Example ex_run : run_services (ex_env 100) 3 [0; 3; 1; 3]%nat =
  ([Call Create 0 true; Call Create 2 true; Call Ready 0 true; Call Ready 2 true; Call Start 0 true; Call Start 2 true;
    Call Handle 0 true; Call Create 3 true; Call Ready 3 true; Call Start 3 true; Call Handle 3 true; Call Handle 3 true;
    Call Stop 0 true; Call Stop 2 true; Call Stop 3 true], true).
Proof. reflexivity. Qed.
Example ex_run_fail : run_services (ex_env 8) 3 [0; 3; 1; 3]%nat =
  ([Call Create 0 true; Call Create 2 true; Call Ready 0 true; Call Ready 2 true; Call Start 0 true; Call Start 2 true;
    Call Handle 0 true; Call Create 3 true; Call Ready 3 false; Call Stop 3 true; Call Stop 2 true; Call Stop 0 true], true).
Proof. reflexivity. Qed.
Example ex_run_leak : run_services (ex_env 1) 3 [] = ([Call Create 0 true; Call Create 2 false], false).
Proof. reflexivity. Qed.
