(* WebmonitorProps.v: C148. *)
From Verif Require Import Webmonitor.
From Coq Require Import Lia.
Open Scope nat_scope.

(* ---- Origins ---- *)
(* All if none are configured (nil), otherwise exactly the listed ones *)
Theorem monitor_origins : forall origins header,
  check_origin origins header = true <-> (origins = None \/ exists l, origins = Some l /\ In header l /\ header <> []).
Proof.
  assert (T : forall a b, text_eqb a b = true <-> a = b) by (intros a b; unfold text_eqb; destruct (list_eq_dec Z.eq_dec a b); split; congruence).
  assert (I : forall h l, origin_in h l = true <-> In h l).
  { intros h. induction l as [|a l IH]; cbn; [split; [discriminate|contradiction]|]. destruct (text_eqb h a) eqn:E.
    - apply T in E. split; auto.
    - rewrite IH. split; auto. intros [->|H]; auto. assert (text_eqb h h = true) by (apply T; auto). congruence. }
  intros [l|] header; cbn.
  - destruct (text_eqb header []) eqn:E.
    + apply T in E. subst. split; [discriminate|]. intros [H|(l' & _ & _ & H)]; [discriminate|congruence].
    + rewrite I. split.
      * intros H. right. exists l. repeat split; auto. intros ->. cbn in E. discriminate.
      * intros [H|(l' & H & X & _)]; [discriminate|]. injection H as <-. auto.
  - split; auto.
Qed.
Print Assumptions monitor_origins.
Corollary no_origins header : check_origin (Some []) header = false.
Proof. destruct (check_origin (Some []) header) eqn:E; auto. apply monitor_origins in E. destruct E as [E|(l & E & H & _)]; [discriminate|]. injection E as <-. destruct H. Qed.
Print Assumptions no_origins.

(* ---- Frames ---- *)
Definition events (l : list input) : list output := flat_map (fun x => match x with Item e err => [Event e err] | _ => [] end) l.
Definition is_frame (x : output) : bool := match x with State | Event _ _ => true | _ => false end.
(* What comes before the connection's end, and the end (with what is left) *)
Fixpoint before_end (l : list input) : list input :=
  match l with [] => [] | (Slow | Done) :: _ => [] | x :: t => x :: before_end t end.
Fixpoint end_of (l : list input) : option input :=
  match l with [] => None | (Slow | Done) as x :: _ => Some x | _ :: t => end_of t end.
Definition farewell (e : option input) : list output :=
  match e with Some Slow => [Logged; TryAgainLater; Unsubscribe; Disconnect] | Some _ => [GoingAway; Unsubscribe; Disconnect] | None => [] end.
Lemma loop_spec ok l : forall n,
  (exists k, k < length (events (before_end l)) /\ ok (n + k) = false /\ (forall j, j < k -> ok (n + j) = true) /\
     loop ok n l = firstn k (events (before_end l)) ++ [Logged; Unsubscribe; Disconnect]) \/
  ((forall j, j < length (events (before_end l)) -> ok (n + j) = true) /\ loop ok n l = events (before_end l) ++ farewell (end_of l)).
Proof.
  induction l as [|x l IH]; intros n.
  - right. cbn. split; [lia|reflexivity].
  - destruct x as [e err| | |]; cbn [loop before_end end_of events flat_map app length].
    + destruct (ok n) eqn:E.
      * destruct (IH (S n)) as [(k & K1 & K2 & K3 & K4)|[H1 H2]].
        -- left. exists (S k). fold (events (before_end l)) in *. split; [lia|]. split; [rewrite Nat.add_succ_r; exact K2|]. split.
           ++ intros [|j] H; [rewrite Nat.add_0_r; auto|]. rewrite Nat.add_succ_r. apply K3. lia.
           ++ rewrite K4. reflexivity.
        -- right. fold (events (before_end l)) in *. split.
           ++ intros [|j] H; [rewrite Nat.add_0_r; auto|]. rewrite Nat.add_succ_r. apply H1. lia.
           ++ rewrite H2. reflexivity.
      * left. exists 0. split; [lia|]. rewrite Nat.add_0_r. repeat split; auto. lia.
    + right. split; [cbn; lia|reflexivity].
    + right. split; [cbn; lia|reflexivity].
    + apply IH.
Qed.
(* An accepted client is shown the state and then each event, once, in order, until a write fails, the subscription is closed for slowness or the server
   stops; in the last two cases it has got all of the events, and is told why *)
Theorem monitor_frames : forall ok l,
  (exists k, k <= length (events (before_end l)) /\ ok k = false /\ (forall j, j < k -> ok j = true) /\
     handle true true ok l = firstn k (State :: events (before_end l)) ++ [Logged; Unsubscribe; Disconnect]) \/
  ((forall j, j <= length (events (before_end l)) -> ok j = true) /\
     handle true true ok l = State :: events (before_end l) ++ farewell (end_of l)).
Proof.
  intros ok l. unfold handle. cbn [negb]. destruct (ok 0) eqn:E.
  - destruct (loop_spec ok l 1) as [(k & K1 & K2 & K3 & K4)|[H1 H2]].
    + left. exists (S k). split; [lia|]. split; [exact K2|]. split; [intros [|j] H; auto; apply K3; lia|]. rewrite K4. reflexivity.
    + right. split; [intros [|j] H; auto; apply H1; lia|]. rewrite H2. reflexivity.
  - left. exists 0. split; [lia|]. repeat split; auto. lia.
Qed.
Print Assumptions monitor_frames.
Lemma loop_end ok l : forall n, ((end_of l <> None \/ exists j, j < length (events (before_end l)) /\ ok (n + j) = false) ->
  exists a, loop ok n l = a ++ [Unsubscribe; Disconnect] /\ ~ In Unsubscribe a /\ ~ In Disconnect a).
Proof.
  assert (N : forall x l, In x (events l) -> is_frame x = true).
  { intros x l0 H. apply in_flat_map in H. destruct H as ([e err| | |] & _ & H); cbn in H; try contradiction. destruct H as [<-|[]]. reflexivity. }
  assert (F : forall (a b : list output), (forall x, In x a -> is_frame x = true) -> ~ In Unsubscribe b -> ~ In Disconnect b -> ~ In Unsubscribe (a ++ b) /\ ~ In Disconnect (a ++ b)).
  { intros a b Ha Hb Hc. split; intros H; apply in_app_iff in H; destruct H as [H|H]; auto; apply Ha in H; discriminate. }
  intros n H. destruct (loop_spec ok l n) as [(k & K1 & K2 & K3 & K4)|[H1 H2]].
  - rewrite K4. exists (firstn k (events (before_end l)) ++ [Logged]). split; [rewrite <- app_assoc; reflexivity|]. apply F; try (cbn; intuition discriminate).
    intros x Hx. apply (N x (before_end l)). rewrite <- (firstn_skipn k (events (before_end l))). apply in_app_iff. auto.
  - destruct H as [H|(j & J1 & J2)]; [|rewrite H1 in J2 by auto; discriminate]. rewrite H2. destruct (end_of l) as [[e err| | |]|] eqn:E; [..|congruence]; cbn [farewell].
    2: exists (events (before_end l) ++ [Logged; TryAgainLater]).
    1,3,4: exists (events (before_end l) ++ [GoingAway]).
    1-4: split; [rewrite <- app_assoc; reflexivity|]; apply F; [intros x; apply N|cbn; intuition discriminate..].
Qed.
(* However it ends, the subscription is ended (if there is one), and then the connection is closed, both once; nothing is written afterwards *)
Theorem monitor_cleanup : forall subscribed ok l,
  (end_of l <> None \/ subscribed = false \/ exists j, j <= length (events (before_end l)) /\ ok j = false) ->
  exists a, handle true subscribed ok l = a ++ (if subscribed then [Unsubscribe] else []) ++ [Disconnect] /\ ~ In Unsubscribe a /\ ~ In Disconnect a.
Proof.
  intros subscribed ok l H. unfold handle. cbn [negb]. destruct subscribed; cbn [negb].
  - destruct (ok 0) eqn:E.
    + destruct (loop_end ok l 1) as (a & A & B & C).
      { destruct H as [H|[H|(j & J1 & J2)]]; [auto|discriminate|]. right. destruct j as [|j]; [congruence|]. exists j. split; [lia|exact J2]. }
      exists (State :: a). rewrite A. split; [reflexivity|]. cbn. intuition discriminate.
    + exists [Logged]. cbn. intuition discriminate.
  - exists [GoingAway]. cbn. intuition discriminate.
Qed.
Print Assumptions monitor_cleanup.
(* "A client that has gone away is unsubscribed": not before something is written to it *)
Theorem gone_is_noticed_refuted : exists ok l, In Gone l /\ ~ In Unsubscribe (handle true true ok l) /\ forall l', (forall x, In x l' -> x = Gone) -> ~ In Unsubscribe (handle true true ok (l ++ l')).
Proof.
  exists (fun _ => true), [Gone]. split; [left; auto|]. split; [cbn; intuition discriminate|]. intros l' H. cbn. intros [X|X]; [discriminate|].
  induction l' as [|x t IH]; [destruct X|]. rewrite (H x (or_introl eq_refl)) in X. apply IH; auto. intros y Hy. apply H. right. auto.
Qed.
Print Assumptions gone_is_noticed_refuted.

(* A connection which isn't accepted is shown nothing and has no effects *)
Theorem monitor_rejected : forall subscribed ok l x, In x (handle false subscribed ok l) -> x = Logged.
Proof. intros subscribed ok l x [<-|[]]. reflexivity. Qed.
Print Assumptions monitor_rejected.

(* ---- Examples ---- *)
Example slow_client : handle true true (fun _ => true) [Item 1 None; Gone; Item 2 (Some []); Slow; Item 3 None] =
  [State; Event 1 None; Event 2 (Some []); Logged; TryAgainLater; Unsubscribe; Disconnect].
Proof. reflexivity. Qed.
Example origin_listed : check_origin (Some [[97%Z]; [98%Z]]) [98%Z] = true /\ check_origin (Some [[97%Z]]) [98%Z] = false.
Proof. split; reflexivity. Qed.
