(* EventLogProps.v: C150. *)
From Verif Require Import EventLog.
From Coq Require Import Lia.

(* ---- Specification ---- *)
Definition sink_eqb (a b : sink) : bool := match a, b with ErrorLog, ErrorLog | InfoLog, InfoLog | DefaultLog, DefaultLog | Page, Page => true | _, _ => false end.
(* What a sink gets, in order *)
Definition gets (s : sink) (l : list (sink * event * option bytes)) : list (event * option bytes) :=
  map (fun x => (snd (fst x), snd x)) (filter (fun x => sink_eqb s (fst (fst x))) l).
Definition event_type (e : event) : Prop := 0 <= e_type e <= INSTANCE_DEBUG.
Definition internal (x : event * option bytes) : bool := e_type (fst x) =? FAIL_INTERNAL.

Lemma gets_app s a b : gets s (a ++ b) = gets s a ++ gets s b.
Proof. unfold gets. rewrite filter_app, map_app. reflexivity. Qed.
Lemma observe_gets s m (f : event * option bytes -> bool) (h : list (event * option bytes)) : (forall x, In x h -> gets s (m (fst x) (snd x)) = if f x then [x] else []) -> gets s (observe m h) = filter f h.
Proof.
  induction h as [|x h IH]; intros H; [reflexivity|]. unfold observe. cbn [flat_map filter]. rewrite gets_app, (H x) by (left; auto).
  fold (observe m h). rewrite IH by (intros y Hy; apply H; right; auto). destruct (f x); reflexivity.
Qed.
Lemma internal_leb e : event_type e -> (e_type e <=? FAIL_INTERNAL) = (e_type e =? FAIL_INTERNAL).
Proof. unfold event_type, FAIL_INTERNAL. intros H. destruct (Z.leb_spec (e_type e) 0), (Z.eqb_spec (e_type e) 0); auto; lia. Qed.
Lemma filter_none (A : Type) (l : list A) : filter (fun _ => false) l = [].
Proof. induction l; auto. Qed.
Lemma filter_all (A : Type) (l : list A) : filter (fun _ => true) l = l.
Proof. induction l as [|a l IH]; cbn; [auto|]. rewrite IH. reflexivity. Qed.

(* gate-server's logs and monitor page: every internal error is in the error log, every other event in the information log if it's verbose, and all events on
   the monitor page if there's one; each once and in order, and nothing else *)
Theorem server_logs : forall verbose c h, (forall x, In x h -> event_type (fst x)) ->
  let l := observe (server_monitor (Some (gate_server_monitor verbose c))) h in
  gets ErrorLog l = filter internal h /\
  gets InfoLog l = (if verbose then filter (fun x => negb (internal x)) h else []) /\
  gets Page l = (match monitor_addr c with [] => [] | _ => h end) /\
  gets DefaultLog l = [].
Proof.
  intros verbose c h T. cbn zeta. cbn [server_monitor].
  assert (E : forall s (f : event * option bytes -> bool), (forall x, event_type (fst x) -> gets s (gate_server_monitor verbose c (fst x) (snd x)) = if f x then [x] else []) ->
    gets s (observe (gate_server_monitor verbose c) h) = filter f h) by (intros s f H; apply observe_gets; intros x Hx; apply H, T, Hx).
  assert (X : forall x : event * option bytes, event_type (fst x) -> gate_server_monitor verbose c (fst x) (snd x) =
    (if internal x then [(ErrorLog, fst x, snd x)] else if verbose then [(InfoLog, fst x, snd x)] else []) ++
    match monitor_addr c with [] => [] | _ => [(Page, fst x, snd x)] end).
  { intros x Hx. unfold gate_server_monitor, internal. rewrite <- internal_leb by exact Hx.
    destruct (monitor_addr c); cbn; unfold error_event_logger, error_logger; destruct verbose, (e_type (fst x) <=? FAIL_INTERNAL); reflexivity. }
  repeat split.
  - apply E. intros x Hx. rewrite X by exact Hx. destruct (internal x), verbose, (monitor_addr c), x; reflexivity.
  - rewrite (E InfoLog (fun x => verbose && negb (internal x))).
    + destruct verbose; [reflexivity|apply filter_none].
    + intros x Hx. rewrite X by exact Hx. destruct (internal x), verbose, (monitor_addr c), x; reflexivity.
  - rewrite (E Page (fun _ => match monitor_addr c with [] => false | _ => true end)).
    + destruct (monitor_addr c); [apply filter_none|apply filter_all].
    + intros x Hx. rewrite X by exact Hx. destruct (internal x), verbose, (monitor_addr c), x; reflexivity.
  - rewrite (E DefaultLog (fun _ => false)); [apply filter_none|].
    intros x Hx. rewrite X by exact Hx. destruct (internal x), verbose, (monitor_addr c), x; reflexivity.
Qed.
Print Assumptions server_logs.
(* Without a monitor, internal errors are in the default log *)
Theorem default_logs h : (forall x, In x h -> event_type (fst x)) -> forall s,
  gets s (observe (server_monitor None) h) = match s with DefaultLog => filter internal h | _ => [] end.
Proof.
  intros T s. cbn [server_monitor].
  rewrite (observe_gets s default_monitor (fun x => match s with DefaultLog => internal x | _ => false end)).
  - destruct s; auto using filter_none.
  - intros x Hx. unfold default_monitor, error_logger, internal. rewrite internal_leb by (apply T; exact Hx). destruct s, (e_type (fst x) =? FAIL_INTERNAL), x; reflexivity.
Qed.
Print Assumptions default_logs.
(* Combined monitors get each event in their order *)
Theorem combined l e err : multi_monitor l e err = concat (map (fun f => f e err) l).
Proof. unfold multi_monitor. apply flat_map_concat_map. Qed.
Print Assumptions combined.
(* "Errors are in the error log": not those of the network, the protocol and the requests *)
Theorem failures_logged_refuted : exists e err c, event_type e /\ err <> None /\ gets ErrorLog (gate_server_monitor true c e err) = [] /\ gate_server_monitor false c e err = [].
Proof.
  exists (Ev 1 []), (Some []), (Config [] None 0 true Memory Memory Public false false false false false false false).
  split; [unfold event_type, INSTANCE_DEBUG; cbn; lia|]. split; [discriminate|]. split; reflexivity.
Qed.
Print Assumptions failures_logged_refuted.

Example logs : let c := Config [58]%Z None 0 true Memory Memory Public false false false false false false false in
  observe (gate_server_monitor true c) [(Ev 0 [1], None); (Ev 16 [2], Some [3])] =
  [(ErrorLog, Ev 0 [1], None); (Page, Ev 0 [1], None); (InfoLog, Ev 16 [2], Some [3]); (Page, Ev 16 [2], Some [3])].
Proof. reflexivity. Qed.
