(* MonitorProps.v: properties of the event monitor (C44). *)
From Verif Require Import Base ListLemmas Monitor.

Definition counted (i : item) : bool := match ikind i with KOther | KNil => false | _ => true end.

Lemma upd_spec {A} (f : A -> A) l : forall n x, In x (upd n f l) -> In x l \/ exists y, nth_error l n = Some y /\ x = f y.
Proof.
  induction l as [|a t IH]; intros n x I; [destruct n; destruct I|]. destruct n as [|n]; cbn in I.
  - destruct I as [<-|I]; [right; exists a; auto|left; now right].
  - destruct I as [<-|I]; [left; now left|]. apply IH in I. destruct I as [I|I]; [left; now right|right; exact I].
Qed.

(* What a channel got so far: a prefix of what was processed since it was
   subscribed; all of it, except the item being delivered if its turn has not
   come yet, and except after it was killed or unsubscribed. *)
Definition sub_ok (lg : list item) (del : option item) (x : sub) : Prop :=
  (exists rest, skipn (start x) lg = sgot x ++ rest) /\ (start x <= length lg)%nat /\
  (exists early, sgot x = early ++ sq x) /\ (length (sq x) <= scap x)%nat /\
  match sstate x with
  | Live => match del with
            | Some i => if pend x then skipn (start x) lg = sgot x ++ [i] else skipn (start x) lg = sgot x
            | None => skipn (start x) lg = sgot x /\ pend x = false
            end
  | Doomed => pend x = false /\ del <> None
  | Closed => pend x = false
  end.
Definition del_of (p : phase) : option item := match p with Deliver i _ => Some i | _ => None end.
Definition inv (m : mon) : Prop :=
  current m = None /\
  (ph m <> Crashed ->
   accepted m = log m ++ items m /\
   (forall x, In x (subs m) -> sub_ok (log m) (del_of (ph m)) x) /\
   (match ph m with Deliver i (Some s) => exists x, nth_error (subs m) s = Some x /\ pend x = true /\ sstate x = Live | _ => True end)) /\
  (forall i, In i (log m) -> counted i = false).

Lemma skipn_app_le {A} n (a b : list A) : (n <= length a)%nat -> skipn n (a ++ b) = skipn n a ++ b.
Proof. intros L. rewrite skipn_app. now replace (n - length a)%nat with O by lia. Qed.

Lemma nth_upd {A} (f : A -> A) l : forall n k, nth_error (upd n f l) k = if Nat.eqb n k then option_map f (nth_error l k) else nth_error l k.
Proof.
  induction l as [|a t IH]; intros n k; [destruct n, k; cbn; try reflexivity; now destruct (Nat.eqb n k)|].
  destruct n as [|n], k as [|k]; cbn; auto.
Qed.

Lemma read1_ok lg d y : sub_ok lg d y -> sub_ok lg d (read1 y).
Proof.
  intros (S1 & S2 & (e & S3) & S4 & S5). unfold sub_ok, read1. cbn [start sgot sq scap sstate pend]. split; [exact S1|]. split; [exact S2|]. split; [|split; [rewrite skipn_length; lia|exact S5]].
  destruct (sq y) as [|z r]; [exists e; exact S3|exists (e ++ [z]); cbn; rewrite S3, <- app_assoc; reflexivity].
Qed.
Lemma step_inv m a m' : inv m -> step m a = Some m' -> inv m'.
Proof.
  intros (C & I & L) H.
  assert (NC : ph m = Crashed -> inv m').
  { intros P. assert (G : current m' = current m /\ log m' = log m /\ ph m' = Crashed).
    { unfold step in H; rewrite P in H. destruct a; try discriminate H.
      - destruct (mdone m); [|discriminate]. injection H as <-. auto.
      - injection H as <-. auto.
      - injection H as <-. auto. }
    destruct G as (G1 & G2 & G3). unfold inv. rewrite G1, G2, G3. split; [exact C|]. split; [congruence|exact L]. }
  destruct (ph m) eqn:P; try (now apply NC); clear NC;
    (assert (I' : _) by (apply I; discriminate)); clear I; destruct I' as (A & S & Q); cbn [del_of] in S.
  all: destruct a; unfold step in H; rewrite ?P in H; try discriminate H.
  (* AEvent *)
  all: try (match type of H with (if Nat.ltb ?a ?b then _ else _) = _ => destruct (Nat.ltb a b) end; injection H as <-;
            unfold inv; cbn; rewrite ?P; (split; [exact C|split; [intros _; split; [rewrite A; now rewrite ?app_assoc|split; [exact S|exact Q]]|exact L]]); fail).
  (* ASent *)
  all: try (match type of H with match nth_error ?s ?n with _ => _ end = _ => destruct (nth_error s n) as [i0|]; [|discriminate H] end;
            match type of H with (if Nat.ltb ?a ?b then _ else _) = _ => destruct (Nat.ltb a b); [|discriminate H] end; injection H as <-;
            unfold inv; cbn; rewrite ?P; (split; [exact C|split; [intros _; split; [rewrite A; now rewrite ?app_assoc|split; [exact S|exact Q]]|exact L]]); fail).
  (* AGiveUp, ADone *)
  all: try (destruct (mdone m) eqn:MD; [|discriminate H]; injection H as <-; unfold inv; cbn; rewrite ?P; (split; [exact C|split; [intros _; split; [exact A|split; [exact S|exact Q]]|exact L]]); fail).
  all: try (injection H as <-; unfold inv; cbn; rewrite ?P; (split; [exact C|split; [intros _; split; [exact A|split; [exact S|exact Q]]|exact L]]); fail).
  (* ARead *)
  all: try (injection H as <-; unfold inv, set_subs; cbn; rewrite ?P; (split; [exact C|split; [intros _; split; [exact A|split]|exact L]]);
    [ intros x X; apply upd_spec in X; destruct X as [X|(y & Y & ->)]; [now apply S|]; apply nth_error_In in Y; specialize (S y Y); now apply read1_ok
    | try exact Logic.I;
      try (destruct cur as [s0|]; [|exact Logic.I]; destruct Q as (x & X & PX & LX); rewrite nth_upd; destruct (Nat.eqb s s0); [|eauto]; rewrite X; cbn; exists (read1 x); auto)]; fail).
  - (* Idle, ATake *)
    destruct (items m) as [|i t] eqn:IT; [discriminate|]. destruct (update (current m) (ikind i)) as [c| |] eqn:U.
    + injection H as <-. rewrite C in U.
      assert (NCt : counted i = false /\ c = None) by (unfold update, counted in *; destruct (ikind i); try discriminate; injection U as <-; auto). destruct NCt as [NCt ->].
      unfold inv. cbn. split; [reflexivity|]. split; [intros _; split; [|split]|].
      * rewrite A, <- app_assoc. reflexivity.
      * intros x X. apply in_map_iff in X. destruct X as (y & <- & Y). destruct (S y Y) as ((r & S1) & S2 & S3 & S4 & S5).
        unfold sub_ok, mark; cbn. rewrite skipn_app_le by assumption. rewrite app_length. cbn.
        split; [exists (r ++ [i]); rewrite S1, <- app_assoc; reflexivity|]. split; [lia|]. split; [exact S3|]. split; [exact S4|].
        destruct (sstate y); [destruct S5 as [-> _]; reflexivity|split; [reflexivity|discriminate]|reflexivity].
      * exact Logic.I.
      * intros j J. apply in_app_iff in J. destruct J as [J|[<-|[]]]; auto.
    + injection H as <-. unfold inv; cbn. split; [exact C|]. split; [congruence|exact L].
    + injection H as <-. unfold inv; cbn. split; [exact C|]. split; [congruence|exact L].
  - (* ASubscribe *)
    injection H as <-. unfold inv, set_ph, set_subs; cbn. split; [exact C|]. split; [intros _; split; [exact A|split; [|exact Logic.I]]|exact L].
    intros x X. apply in_app_iff in X. destruct X as [X|[<-|[]]]; [now apply S|]. unfold sub_ok; cbn. rewrite skipn_all. repeat split; auto; try lia; exists []; reflexivity.
  - (* AUnsubscribe *)
    destruct (nth_error (subs m) s) as [x|] eqn:X; [|discriminate].
    assert (G : inv (set_subs m (upd s close (subs m)))).
    { unfold inv, set_subs; cbn; rewrite P. split; [exact C|]. split; [intros _; split; [exact A|split; [|exact Logic.I]]|exact L].
      intros y Y. apply upd_spec in Y. destruct Y as [Y|(z & Z0 & ->)]; [now apply S|]. apply nth_error_In in Z0. destruct (S z Z0) as (S1 & S2 & S3 & S4 & S5).
      unfold sub_ok, close; cbn. repeat split; auto. destruct (sstate z); tauto. }
    destruct (sstate x); injection H as <-; auto. unfold inv, set_ph; cbn. split; [exact C|]. split; [congruence|exact L].
  - (* APick *)
    destruct cur; [discriminate|]. destruct (nth_error (subs m) s) as [x|] eqn:X; [|discriminate]. destruct (pend x) eqn:PX; [|discriminate]. injection H as <-.
    unfold inv, set_ph; cbn. split; [exact C|]. split; [intros _; split; [exact A|split; [exact S|]]|exact L].
    exists x. split; [exact X|]. split; [exact PX|]. specialize (S x (nth_error_In _ _ X)). destruct S as (_ & _ & _ & _ & S5). destruct (sstate x); [reflexivity|destruct S5; congruence|congruence].
  - (* APut *)
    destruct cur as [s|]; [|discriminate]. destruct Q as (x & X & PX & LX). rewrite X in H. destruct (Nat.ltb_spec (length (sq x)) (scap x)); [|discriminate]. injection H as <-.
    unfold inv, set_ph, set_subs; cbn. split; [exact C|]. split; [intros _; split; [exact A|split; [|exact Logic.I]]|exact L].
    intros y Y. apply upd_spec in Y. destruct Y as [Y|(z & Z0 & ->)]; [now apply S|]. rewrite X in Z0. injection Z0 as <-.
    destruct (S x (nth_error_In _ _ X)) as (S1 & S2 & (e & S3) & S4 & S5). rewrite LX, PX in S5. unfold sub_ok, put; cbn. rewrite LX.
    split; [exists []; now rewrite app_nil_r|]. split; [exact S2|]. split; [exists e; rewrite S3, app_assoc; reflexivity|]. split; [rewrite app_length; cbn; lia|exact S5].
  - (* AHand *)
    destruct cur as [s|]; [|discriminate]. destruct Q as (x & X & PX & LX). rewrite X in H. destruct (sq x) eqn:SQ; [|discriminate]. injection H as <-.
    unfold inv, set_ph, set_subs; cbn. split; [exact C|]. split; [intros _; split; [exact A|split; [|exact Logic.I]]|exact L].
    intros y Y. apply upd_spec in Y. destruct Y as [Y|(z & Z0 & ->)]; [now apply S|]. rewrite X in Z0. injection Z0 as <-.
    destruct (S x (nth_error_In _ _ X)) as (S1 & S2 & (e & S3) & S4 & S5). rewrite LX, PX in S5. unfold sub_ok, hand; cbn. rewrite LX.
    split; [exists []; now rewrite app_nil_r|]. split; [exact S2|]. split; [exists (sgot x ++ [i]); now rewrite app_nil_r|]. split; [lia|exact S5].
  - (* AKill *)
    destruct cur as [s|]; [|discriminate]. destruct (nth_error (kills m) n) as [k|]; [|discriminate]. injection H as <-. destruct Q as (x & X & PX & LX).
    unfold inv; cbn. split; [exact C|]. split; [intros _; split; [exact A|split; [|exact Logic.I]]|exact L].
    intros y Y. apply upd_spec in Y. destruct Y as [Y|(z & Z0 & ->)]; [now apply S|]. rewrite X in Z0. injection Z0 as <-.
    destruct (S x (nth_error_In _ _ X)) as (S1 & S2 & S3 & S4 & S5). unfold sub_ok, doom; cbn. repeat split; auto. discriminate.
  - (* AFinish *)
    destruct cur; [discriminate|]. destruct (existsb pend (subs m)) eqn:EP; [discriminate|]. injection H as <-.
    unfold inv, set_ph, set_subs; cbn. split; [exact C|]. split; [intros _; split; [exact A|split; [|exact Logic.I]]|exact L].
    intros y Y. apply in_map_iff in Y. destruct Y as (z & <- & Z0). destruct (S z Z0) as (S1 & S2 & S3 & S4 & S5).
    assert (PZ : pend z = false) by (destruct (pend z) eqn:E; [|reflexivity]; exfalso; assert (existsb pend (subs m) = true) by (apply existsb_exists; eauto); congruence).
    unfold sub_ok, close_doomed, close. destruct (sstate z) eqn:SZ; cbn; rewrite ?SZ; repeat split; auto. now rewrite PZ in S5.
  - destruct gone; [discriminate|]. injection H as <-. unfold inv, set_ph; cbn. split; [exact C|]. split; [intros _; split; [exact A|split; [exact S|exact Logic.I]]|exact L].
Qed.

Lemma run_inv l : forall m m', inv m -> run m l = Some m' -> inv m'.
Proof.
  induction l as [|a t IH]; intros m m' I R; cbn in R; [now injection R as <-|].
  destruct (step m a) as [m1|] eqn:S; [|discriminate]. apply (IH m1); [now apply (step_inv m a)|exact R].
Qed.
Lemma New_inv n : inv (New n).
Proof. unfold inv; cbn. split; [reflexivity|split; [intros _; split; [reflexivity|split; [intros x []|exact I]]|intros i []]]. Qed.

(* C44: events are processed in the order in which they were accepted, and each
   live subscriber's channel got exactly those processed since its subscription,
   whenever no delivery is going on; what was put to any channel never has gaps,
   repetitions or changes in order. *)
Theorem monitor_fanout : forall n l m,
  run (New n) l = Some m -> ph m <> Crashed ->
  accepted m = log m ++ items m /\
  (forall x, In x (subs m) ->
     (exists rest, skipn (start x) (log m) = sgot x ++ rest) /\ (exists read, sgot x = read ++ sq x) /\ (length (sq x) <= scap x)%nat) /\
  (ph m = Idle -> forall x, In x (subs m) -> sstate x = Live -> sgot x = skipn (start x) (log m)).
Proof.
  intros n l m R P. destruct (run_inv l _ _ (New_inv n) R) as (_ & I & _). destruct (I P) as (A & S & _).
  split; [exact A|]. split.
  - intros x X. destruct (S x X) as (S1 & S2 & S3 & S4 & _). auto.
  - intros PI x X LX. destruct (S x X) as (_ & _ & _ & _ & S5). rewrite LX, PI in S5. destruct S5 as [S5 _]. now symmetry.
Qed.
Print Assumptions monitor_fanout.

Definition ev (n : nat) : item := Item KOther n.
Example monitor_example : exists m,
  run (New 1) [ASubscribe 2; AAnswer; AEvent (ev 1); ATake; AEvent (ev 2); APick 0; APut; AFinish; ASubscribe 0; AAnswer; ATake;
               AEvent (ev 3); APick 1; AEvent (ev 4); AKill 0; APick 0; APut; AFinish; ARead 0] = Some m /\
  log m = [ev 1; ev 2] /\ map sgot (subs m) = [[ev 1; ev 2]; []] /\ map sstate (subs m) = [Live; Closed] /\ map sq (subs m) = [[ev 2]; []] /\ ph m = Idle /\ sends m = [ev 4].
Proof. eexists. split; [vm_compute; reflexivity|]. repeat split. Qed.

(* C44, refuted: the monitor cannot process a single event that it counts.  (Its
   state is never allocated.) *)
Theorem monitor_counted_refuted : forall n l m i t,
  run (New n) l = Some m ->
  (forall i, In i (log m) -> counted i = false) /\
  (ph m = Idle -> items m = i :: t -> counted i = true -> exists m', step m ATake = Some m' /\ ph m' = Crashed).
Proof.
  intros n l m i t R. destruct (run_inv l _ _ (New_inv n) R) as (C & _ & L). split; [exact L|].
  intros P IT CI. unfold step. rewrite P, IT. rewrite C. unfold counted in CI.
  destruct (ikind i) eqn:K; try discriminate; cbn; eexists; split; reflexivity.
Qed.
Print Assumptions monitor_counted_refuted.
Example monitor_counted_example : exists m, run (New 5) [AEvent (Item KProgram 0); ATake] = Some m /\ ph m = Crashed.
Proof. eexists. split; reflexivity. Qed.

(* The monitor crashes only for such an event, or when a subscriber that was cut off
   unsubscribes. *)
Theorem monitor_crash_partial : forall n l m a m',
  run (New n) l = Some m -> step m a = Some m' -> ph m <> Crashed -> ph m' = Crashed ->
  (a = ATake /\ exists i t, items m = i :: t /\ counted i = true) \/
  (exists s x, a = AUnsubscribe s /\ nth_error (subs m) s = Some x /\ sstate x = Closed).
Proof.
  intros n l m a m' R S P P'. unfold step in S.
  destruct a; try (destruct (ph m) eqn:PH; try discriminate); try congruence;
    repeat match type of S with
    | (if ?c then _ else _) = _ => destruct c; try discriminate S
    | Some _ = Some _ => fail 1
    | match nth_error ?l ?n with _ => _ end = _ => destruct (nth_error l n) eqn:?; try discriminate S
    | match items m with _ => _ end = _ => destruct (items m) eqn:?; try discriminate S
    | match update ?c ?k with _ => _ end = _ => destruct (update c k) eqn:?; try discriminate S
    | match sstate ?c with _ => _ end = _ => destruct (sstate c) eqn:?; try discriminate S
    | match sq ?c with _ => _ end = _ => destruct (sq c) eqn:?; try discriminate S
    | match ?c with _ => _ end = _ => destruct c; try discriminate S
    end; try (injection S as <-; cbn in P'; congruence).
  - left. split; [reflexivity|]. eexists _, _. split; [reflexivity|]. unfold update in *. unfold counted. destruct (ikind i); try discriminate; reflexivity.
  - left. split; [reflexivity|]. eexists _, _. split; [reflexivity|]. unfold update in *. unfold counted. destruct (ikind i); try discriminate; reflexivity.
  - right. eauto.
Qed.
Print Assumptions monitor_crash_partial.
Theorem monitor_unsubscribe_refuted : exists l m,
  run (New 1) l = Some m /\ ph m = Crashed /\ Forall (fun a => match a with AEvent i => counted i = false | _ => True end) l /\
  (forall s, count_occ Nat.eq_dec (flat_map (fun a => match a with AUnsubscribe s => [s] | _ => [] end) l) s <= 1)%nat.
Proof.
  exists [ASubscribe 0; AAnswer; AEvent (ev 1); ATake; APick 0; AEvent (ev 2); AEvent (ev 3); AKill 0; AFinish; AUnsubscribe 0]. eexists.
  split; [vm_compute; reflexivity|]. split; [reflexivity|]. split; [repeat constructor|]. intros [|s]; cbn; lia.
Qed.
Print Assumptions monitor_unsubscribe_refuted.

(* C44, refuted: a monitor call that finds the buffer full returns only if some
   subscriber is stuck or the monitor is stopped, even though the buffer is
   emptied meanwhile.  Without subscribers it never returns. *)
Theorem monitor_call_stuck_refuted : forall n, exists l m i,
  run (New n) l = Some m /\ In i (kills m) /\ subs m = [] /\
  forall l' m', run m l' = Some m' -> (forall a, In a l' -> a <> ADone /\ forall c, a <> ASubscribe c) -> In i (kills m').
Proof.
  intros n. exists (map (fun k => AEvent (ev k)) (seq 0 (S n))). 
  assert (G : forall k j its acc, (length its + k = n)%nat -> run (Mon n its [] [] None [] Idle false acc []) (map (fun k => AEvent (ev k)) (seq j (S k)))
      = Some (Mon n (its ++ map ev (seq j k)) [ev (j + k)] [] None [] Idle false (acc ++ map ev (seq j k)) [])).
  { assert (RC : forall m a t, run m (a :: t) = match step m a with Some m => run m t | None => None end) by reflexivity.
    induction k as [|k IH]; intros j its acc L; cbn [seq map]; rewrite RC; cbn [step ph items bufsize].
    - replace (Nat.ltb (length its) n) with false by (symmetry; apply Nat.ltb_ge; lia). cbn. rewrite !app_nil_r, Nat.add_0_r. reflexivity.
    - replace (Nat.ltb (length its) n) with true by (symmetry; apply Nat.ltb_lt; lia). cbn [kills sends current subs mdone accepted log].
      specialize (IH (S j) (its ++ [ev j]) (acc ++ [ev j])). rewrite app_length in IH. cbn [length] in IH. specialize (IH ltac:(lia)).
      cbn [seq map] in IH. rewrite IH. rewrite <- !app_assoc. cbn. replace (j + S k)%nat with (S (j + k)) by lia. reflexivity. }
  eexists. exists (ev n). split; [apply (G n 0%nat [] []); reflexivity|]. split; [now left|]. split; [reflexivity|].
  intros l' m' R NA. 
  assert (K : forall l m m', subs m = [] -> mdone m = false -> In (ev n) (kills m) -> run m l = Some m' -> (forall a, In a l -> a <> ADone /\ forall c, a <> ASubscribe c) -> (match ph m with Deliver _ (Some _) => False | _ => True end) -> In (ev n) (kills m')).
  { clear. induction l as [|a t IH]; intros m m' SB MD K R NA PD; cbn in R; [now injection R as <-|].
    destruct (step m a) as [m1|] eqn:S; [|discriminate]. destruct (NA a (or_introl eq_refl)) as [N1 N2].
    assert (G : subs m1 = [] /\ mdone m1 = false /\ In (ev n) (kills m1) /\ match ph m1 with Deliver _ (Some _) => False | _ => True end).
    { unfold step in S. destruct a; try congruence; rewrite ?SB in S; rewrite ?MD in S; try discriminate S.
      - destruct (ph m) eqn:P; try discriminate S; destruct (Nat.ltb _ _); injection S as <-; cbn; rewrite ?P; rewrite ?in_app_iff; auto.
      - destruct (ph m) eqn:P; destruct (nth_error (sends m) n0); try discriminate S; destruct (Nat.ltb _ _); try discriminate S; injection S as <-; cbn; rewrite ?P; auto.
      - destruct (ph m) eqn:P; try discriminate S. destruct (items m) as [|i r]; [discriminate|]. destruct (update (current m) (ikind i)); injection S as <-; cbn; rewrite ?SB; auto.
      - destruct (ph m) as [|? [?|]| | |]; destruct s; discriminate S.
      - destruct (ph m) as [|? [?|]| | |]; try discriminate S. destruct n0; discriminate S.
      - destruct (ph m) as [|? [?|]| | |]; try discriminate S. destruct n0; discriminate S.
      - destruct (ph m) as [|? [?|]| | |]; try discriminate S. destruct PD.
      - destruct (ph m) as [|? [?|]| | |] eqn:P; try discriminate S. cbn in S. injection S as <-. cbn. auto.
      - destruct s; cbn in S; injection S as <-; cbn; auto.
      - destruct (ph m) as [|? [?|]| | |] eqn:P; try discriminate S. injection S as <-. cbn. auto.
      - destruct (ph m) as [|? [?|]| | |] eqn:P; try discriminate S. destruct gone; try discriminate S. injection S as <-. cbn. auto.
      - destruct (ph m) as [|? [?|]| | |] eqn:P; destruct s; discriminate S.
      - destruct (ph m) as [|? [?|]| | |] eqn:P; discriminate S. }
    destruct G as (G1 & G2 & G3 & G4). apply (IH m1 m'); auto. intros a0 I0. apply NA. now right. }
  apply (K l' _ m') in R; cbn; auto.
Qed.
Print Assumptions monitor_call_stuck_refuted.

(* C44, refuted: a subscriber whose context ends while it waits for the reply stops
   the monitor for ever; even stopping the monitor does not end it. *)
Theorem monitor_subscriber_stuck_refuted : forall n,
  exists l m, run (New n) l = Some m /\ forall l' m', run m l' = Some m' -> log m' = [] /\ ph m' = Answer true.
Proof.
  intros n. exists [ASubscribe 0; AWaitOver]. eexists. split; [reflexivity|].
  assert (K : forall l m m', ph m = Answer true -> log m = [] -> run m l = Some m' -> log m' = [] /\ ph m' = Answer true).
  { induction l as [|a t IH]; intros m m' P L R; cbn in R; [injection R as <-; auto|].
    destruct (step m a) as [m1|] eqn:S; [|discriminate].
    assert (G : ph m1 = Answer true /\ log m1 = []).
    { unfold step in S. rewrite P in S. destruct a; try discriminate S;
        try (destruct (Nat.ltb _ _); injection S as <-; cbn; auto; fail);
        try (injection S as <-; cbn; auto; fail);
        try (destruct (mdone m); [|discriminate S]; injection S as <-; cbn; auto; fail);
        try (destruct (nth_error (sends m) n0); [|discriminate S]; destruct (Nat.ltb _ _); [|discriminate S]; injection S as <-; cbn; auto; fail). }
    destruct G. now apply (IH m1). }
  intros l' m' R. now apply (K l' _ m') in R.
Qed.
Print Assumptions monitor_subscriber_stuck_refuted.

(* The counters, if there were any: each program load and link counts one up, instance
   creations up and deletions down, and nothing else counts. *)
Definition kind_eqb (a b : kind) : bool :=
  match a, b with KProgram, KProgram | KLink, KLink | KCreate, KCreate | KDelete, KDelete | KOther, KOther | KNil, KNil => true | _, _ => false end.
Definition number (k : kind) (l : list kind) : Z := len (filter (kind_eqb k) l).
Fixpoint updates (c : option counters) (l : list kind) : res (option counters) :=
  match l with [] => Ok c | k :: t => do c <- update c k; updates c t end.
Theorem monitor_counters : forall l p k i,
  updates (Some (p, k, i)) l = Ok (Some (p + number KProgram l, k + number KLink l, i + number KCreate l - number KDelete l)).
Proof.
  unfold number, len. induction l as [|x l IH]; intros p k i; cbn [updates update bind filter length].
  - change (Z.of_nat 0) with 0%Z. rewrite !Z.add_0_r, Z.sub_0_r. reflexivity.
  - destruct x; cbn [kind_eqb length update bind]; rewrite IH;
      match goal with |- Ok (Some (?a, ?b, ?c)) = Ok (Some (?a', ?b', ?c')) =>
        replace a with a' by lia; replace b with b' by lia; replace c with c' by lia; reflexivity end.
Qed.
Print Assumptions monitor_counters.
