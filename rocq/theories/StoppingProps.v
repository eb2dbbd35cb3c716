(* StoppingProps.v: programs that stop do so after their instances have stopped (C139). *)
From Verif Require Import Stopping.
From Coq Require Import Lia.

Definition all_stopped (l : list inst) : Prop := forall i, In i l -> i = Stopped.

(* ---- Server.Shutdown ---- *)
(* After p, the first instances have stopped. *)
Definition waited (p : shutdown) (l : list inst) : Prop :=
  match p with SBegin => True | SAwait k => all_stopped (firstn k l) | SEnd => all_stopped l end.
Lemma stopped_spec i : stopped i = true <-> i = Stopped. Proof. destruct i; split; auto; discriminate. Qed.
Lemma firstn_nth {A} (k : nat) : forall (l : list A) i, nth_error l k = Some i -> firstn (S k) l = firstn k l ++ [i].
Proof. induction k as [|k IH]; intros [|a l] i H; try discriminate; cbn in *; [now injection H as -> | rewrite <- (IH _ _ H); reflexivity]. Qed.
Lemma waited_step p l p' l' : waited p l -> shutdown_step false p l = Some (p', l') -> waited p' l'.
Proof.
  destruct p as [|k|]; cbn; intros W H; [injection H as <- <-; intros i [] | | discriminate].
  destruct (nth_error l k) as [i|] eqn:N.
  - rewrite orb_false_r in H. destruct (stopped i) eqn:E; [|discriminate]. injection H as <- <-. apply stopped_spec in E. subst.
    cbn [waited]. rewrite (firstn_nth _ _ _ N). intros i I. apply in_app_or in I as [I|[<-|[]]]; [exact (W _ I)|reflexivity].
  - injection H as <- <-. apply nth_error_None in N. cbn [waited]. rewrite firstn_all2 in W by exact N. exact W.
Qed.
Lemma stop_all k : forall l, all_stopped l -> all_stopped (stop_nth k l).
Proof.
  intros l H i I. unfold stop_nth in I. apply in_app_or in I as [I|I].
  - apply H. rewrite <- (firstn_skipn k l). apply in_or_app. now left.
  - destruct (skipn k l) as [|a t] eqn:E; [destruct I|]. destruct I as [<-|I]; [reflexivity|]. apply H. rewrite <- (firstn_skipn k l), E. apply in_or_app. right. now right.
Qed.
Lemma stop_cons k a l : stop_nth (S k) (a :: l) = a :: stop_nth k l. Proof. reflexivity. Qed.
Lemma firstn_stop k : forall n l, all_stopped (firstn n l) -> all_stopped (firstn n (stop_nth k l)).
Proof.
  induction k as [|k IH]; intros n l H.
  - destruct l as [|a l]; [exact H|]. destruct n as [|n]; [exact H|]. cbn in *. intros i [<-|I]; [reflexivity|]. apply H. now right.
  - destruct l as [|a l]; [exact H|]. rewrite stop_cons. destruct n as [|n]; [exact H|]. cbn in *. intros i [<-|I]; [apply H; now left|].
    refine (IH n l _ i I). intros j J. apply H. now right.
Qed.
Lemma waited_stop p k l : waited p l -> waited p (stop_nth k l).
Proof. destruct p; cbn; auto; [apply firstn_stop | apply stop_all]. Qed.

(* ---- The server program ---- *)
Record Inv (waits : bool) (s : world) : Prop := {
  v_dead : w_pc s <> WWait -> dead s = true;
  v_http : http_closed s = true -> w_pc s <> WWait;
  v_main : m_pc s <> MServe -> http_closed s = true;
  v_timeout : timeout s = false;
  v_shutdown : forall p, w_pc s = WServer p -> conns s = 0 /\ waited p (insts s);
  v_exit : waits = true -> m_pc s = MExited -> w_pc s = WServer SEnd }.
Lemma step_inv waits s e s' : Inv waits s -> e <> Timeout -> step waits s e = Some s' -> Inv waits s'.
Proof.
  intros [A B C D E F] N H. destruct s as [de hc cn il to w m]. cbn [dead http_closed conns insts timeout w_pc m_pc] in *. subst to.
  destruct m; [| |discriminate H]; destruct e; try (destruct (N eq_refl)); cbn [step m_pc w_pc dead http_closed conns insts timeout] in H.
  all: try (destruct w as [| | |p]); try (destruct de eqn:DE); try (destruct cn as [|cn]); try discriminate H; cbn [Nat.eqb] in H; try discriminate H.
  all: try (match type of H with match shutdown_step false ?p ?l with _ => _ end = _ => destruct (shutdown_step false p l) as [[p' l']|] eqn:SS; [|discriminate H] end).
  all: try (destruct hc; try discriminate H).
  all: try (match type of H with (if ?c then _ else _) = _ => destruct c eqn:K; [|discriminate H] end).
  all: injection H as <-; constructor; cbn [dead http_closed conns insts timeout w_pc m_pc]; auto; try discriminate; intros.
  all: try (specialize (A ltac:(discriminate)); discriminate).
  all: try (now apply B); try (now apply C); try congruence.
  all: try (match goal with X : WServer _ = WServer _ |- _ => injection X as <- end).
  all: try (destruct (E _ eq_refl) as [E1 E2]; split; [auto; try discriminate | auto using waited_stop; try (exact (waited_step _ _ _ _ E2 SS))]).
  all: try (split; [reflexivity|exact I]).
  all: try (subst waits; cbn in K; discriminate K).
  all: try (subst waits; cbn in K; destruct p; try discriminate K; reflexivity).
Qed.
Lemma run_inv waits l : forall s s', Inv waits s -> ~ In Timeout l -> run waits l s = Some s' -> Inv waits s'.
Proof.
  induction l as [|e l IH]; intros s s' I N R; cbn [run] in R; [injection R as <-; exact I|].
  destruct (step waits s e) as [s1|] eqn:E; [|discriminate]. refine (IH s1 s' _ _ R); [|intros X; apply N; now right].
  exact (step_inv _ _ _ _ I (fun X => N (or_introl X)) E).
Qed.
Lemma start_inv waits c l : Inv waits (start c l).
Proof. constructor; cbn; auto; try discriminate; try (intros X; destruct (X eq_refl)). Qed.
Lemma run_app waits a : forall b s, run waits (a ++ b) s = match run waits a s with Some s' => run waits b s' | None => None end.
Proof. induction a as [|e a IH]; intros b s; cbn [run app]; [reflexivity|]. destruct (step waits s e); [apply IH|reflexivity]. Qed.

(* The server keeps running until one of its executors dies. *)
Lemma dead_dies waits l : forall s s', run waits l s = Some s' -> dead s' = true -> dead s = true \/ In Die l.
Proof.
  induction l as [|e l IH]; intros s s' R D; cbn [run] in R; [injection R as <-; now left|].
  destruct (step waits s e) as [s1|] eqn:E; [|discriminate]. destruct (IH _ _ R D) as [X|X]; [|right; now right].
  destruct e; try (right; now left); left; revert E X; unfold step; destruct (m_pc s) eqn:M, (w_pc s) as [| | |p];
    repeat match goal with |- context [match ?x with _ => _ end] => destruct x end; try discriminate; intros X; injection X as <-; cbn [dead]; congruence.
Qed.
Theorem server_keeps_running : forall waits c l0 l s, ~ In Timeout l -> run waits l (start c l0) = Some s -> m_pc s <> MServe -> In Die l.
Proof.
  intros waits c l0 l s N R M. pose proof (run_inv _ _ _ _ (start_inv waits c l0) N R) as I.
  destruct (dead_dies _ _ _ _ R (v_dead _ _ I (v_http _ _ I (v_main _ _ I M)))) as [X|X]; [discriminate|exact X].
Qed.
Print Assumptions server_keeps_running.

(* Claim: when the server program has exited (within the shutdown's time limit), the connections have been served and the instances have stopped. *)
Definition exits_stopped (waits : bool) : Prop := forall c l0 l s, ~ In Timeout l -> run waits l (start c l0) = Some s -> m_pc s = MExited -> conns s = 0 /\ all_stopped (insts s).
(* The program doesn't do so: whatever connections and instances there are, it may exit as soon as the shutdown has begun, with nothing changed. *)
Theorem server_stop_refuted : forall c l0, exists l s, ~ In Timeout l /\ run false l (start c l0) = Some s /\ m_pc s = MExited /\ conns s = c /\ insts s = l0.
Proof.
  intros c l0. exists [Die; Watch; Watch; Main; Main]. eexists. split; [intros H; cbn in H; intuition discriminate|]. split; [reflexivity|]. auto.
Qed.
Corollary exits_stopped_refuted : ~ exits_stopped false.
Proof.
  intros H. destruct (server_stop_refuted 0 [Running]) as [l [s [N [R [M [_ I]]]]]]. destruct (H _ _ _ _ N R M) as [_ A].
  rewrite I in A. discriminate (A Running (or_introl eq_refl)).
Qed.
(* It would if the main goroutine waited for the shutdown. *)
Theorem server_stop_repair : exits_stopped true.
Proof.
  intros c l0 l s N R M. pose proof (run_inv _ _ _ _ (start_inv true c l0) N R) as I. exact (v_shutdown _ _ I SEnd (v_exit _ _ I eq_refl M)).
Qed.
Print Assumptions server_stop_refuted.
Print Assumptions exits_stopped_refuted.
Print Assumptions server_stop_repair.

(* Nothing holds the shutdown up after its time limit: the watcher goes on by itself until it has exited or has gone through all the instances. *)
Theorem stop_time_limit : forall waits s, timeout s = true -> m_pc s <> MExited -> w_pc s <> WWait ->
  exists n s', run waits (repeat Watch n) s = Some s' /\ (m_pc s' = MExited \/ w_pc s' = WServer SEnd).
Proof.
  intros waits [de hc cn il to w m]. cbn [timeout m_pc w_pc]. intros -> M W.
  assert (X : forall k j hc, k + j = length il -> exists n s', run waits (repeat Watch n) (World de hc cn il true (WServer (SAwait j)) m) = Some s' /\ (m_pc s' = MExited \/ w_pc s' = WServer SEnd)).
  { induction k as [|k IH]; intros j hc' E.
    - exists 1. cbn [repeat run]. unfold step. cbn [m_pc w_pc timeout insts shutdown_step]. rewrite (proj2 (nth_error_None il j)) by lia. destruct m; [| |destruct (M eq_refl)]; eexists; (split; [reflexivity|right; reflexivity]).
    - destruct (IH (S j) hc' ltac:(lia)) as (n & s' & R & D). exists (S n), s'. split; [|exact D]. cbn [repeat run]. unfold step at 1. cbn [m_pc w_pc timeout insts shutdown_step dead http_closed conns].
      destruct (nth_error il j) as [i|] eqn:N; [|apply nth_error_None in N; lia]. rewrite orb_true_r. destruct m; [exact R|exact R|destruct (M eq_refl)]. }
  assert (C : forall hc', exists s', run waits [Watch] (World de hc' cn il true WConns m) = Some s' /\ (m_pc s' = MExited \/ w_pc s' = WServer SEnd)).
  { intros hc'. destruct m; [| |destruct (M eq_refl)]; eexists; (split; [reflexivity|left; reflexivity]). }
  destruct w as [| | |[|j|]]; [destruct (W eq_refl)| | | | |].
  - destruct (C true) as (s' & R & D). exists 2, s'. split; [|exact D]. destruct m; [exact R|exact R|destruct (M eq_refl)].
  - destruct (C hc) as (s' & R & D). exists 1, s'. auto.
  - assert (L : forall k j hc l, k + j = length l -> exists n s', run waits (repeat Watch n) (World de hc cn l true (WServer (SAwait j)) m) = Some s' /\ (m_pc s' = MExited \/ w_pc s' = WServer SEnd)).
    { clear X C. induction k as [|k IH]; intros j hc' l E.
      - exists 1. cbn [repeat run]. unfold step. cbn [m_pc w_pc timeout insts shutdown_step]. rewrite (proj2 (nth_error_None l j)) by lia. destruct m; [| |destruct (M eq_refl)]; eexists; (split; [reflexivity|right; reflexivity]).
      - destruct (IH (S j) hc' l ltac:(lia)) as (n & s' & R & D). exists (S n), s'. split; [|exact D]. cbn [repeat run]. unfold step at 1. cbn [m_pc w_pc timeout insts shutdown_step dead http_closed conns].
        destruct (nth_error l j) as [i|] eqn:N; [|apply nth_error_None in N; lia]. rewrite orb_true_r. destruct m; [exact R|exact R|destruct (M eq_refl)]. }
    destruct (L (length il) 0 hc (map suspend il)) as (n & s' & R & D); [rewrite map_length; lia|]. exists (S n), s'. split; [|exact D].
    destruct m; [exact R|exact R|destruct (M eq_refl)].
  - destruct (Nat.le_gt_cases j (length il)) as [B|B]; [apply (X (length il - j) j hc); lia|].
    exists 1. cbn [repeat run]. unfold step. cbn [m_pc w_pc timeout insts shutdown_step]. rewrite (proj2 (nth_error_None il j)) by lia.
    destruct m; [| |destruct (M eq_refl)]; eexists; (split; [reflexivity|right; reflexivity]).
  - exists 0. eexists. split; [reflexivity|]. right. reflexivity.
Qed.
Print Assumptions stop_time_limit.

(* ---- The daemon ---- *)
Record DInv (s : dworld) : Prop := {
  u_lost : lost s = false;
  u_shutdown : forall p, d_pc s = DShutdown p -> waited p (d_insts s);
  u_exit : d_pc s = DExited -> all_stopped (d_insts s) }.
Lemma dstep_inv s e s' : DInv s -> e <> DBusLost -> dstep s e = Some s' -> DInv s'.
Proof.
  intros [A B C] N H. destruct s as [il lo p]. cbn [lost d_insts d_pc] in *. subst lo.
  destruct p as [|p|]; [| |discriminate H]; destruct e; try (destruct (N eq_refl)); cbn [dstep d_pc d_insts lost] in H; try discriminate H.
  - injection H as <-. constructor; cbn; auto; try discriminate. intros p X. injection X as <-. exact I.
  - injection H as <-. constructor; cbn; auto; discriminate.
  - destruct p; discriminate H.
  - specialize (B _ eq_refl). destruct p as [|k|].
    + injection H as <-. constructor; cbn; auto; try discriminate. intros p X. injection X as <-. intros i [].
    + destruct (shutdown_step false (SAwait k) il) as [[p' l']|] eqn:E; [|discriminate]. injection H as <-. constructor; cbn; auto; try discriminate.
      intros p X. injection X as <-. exact (waited_step _ _ _ _ B E).
    + injection H as <-. constructor; cbn; auto; discriminate.
  - specialize (B _ eq_refl). assert (X : s' = DWorld (stop_nth k il) false (DShutdown p)) by (destruct p; injection H as <-; reflexivity). subst s'.
    constructor; cbn [lost d_insts d_pc]; auto; try discriminate. intros p0 X. injection X as <-. now apply waited_stop.
Qed.
Lemma drun_inv l : forall s s', DInv s -> ~ In DBusLost l -> drun l s = Some s' -> DInv s'.
Proof.
  induction l as [|e l IH]; intros s s' I N R; cbn [drun] in R; [injection R as <-; exact I|].
  destruct (dstep s e) as [s1|] eqn:E; [|discriminate]. refine (IH s1 s' _ _ R); [|intros X; apply N; now right].
  exact (dstep_inv _ _ _ I (fun X => N (or_introl X)) E).
Qed.
(* When the daemon has exited, its instances have stopped, unless it lost the message bus. *)
Theorem daemon_stop : forall l0 l s, ~ In DBusLost l -> drun l (dstart l0) = Some s -> d_pc s = DExited -> all_stopped (d_insts s).
Proof.
  intros l0 l s N R E. refine (u_exit _ (drun_inv l (dstart l0) s _ N R) E). constructor; cbn; auto; discriminate.
Qed.
(* It waits for nothing else: once the instances have stopped, it can go on until it has exited. *)
Theorem daemon_stop_progress : forall s, all_stopped (d_insts s) -> d_pc s <> DSelect -> exists n s', drun (repeat DMain n) s = Some s' /\ d_pc s' = DExited.
Proof.
  intros [il lo p] A N. cbn [d_insts d_pc] in *.
  assert (W : forall m k, m + k = length il -> exists n s', drun (repeat DMain n) (DWorld il lo (DShutdown (SAwait k))) = Some s' /\ d_pc s' = DExited).
  { induction m as [|m IH]; intros k E.
    - exists 2. eexists. cbn. rewrite (proj2 (nth_error_None il k)) by lia. split; reflexivity.
    - destruct (nth_error il k) as [i|] eqn:X; [|apply nth_error_None in X; lia]. destruct (IH (S k) ltac:(lia)) as [n [s' [R D]]]. exists (S n), s'. split; [|exact D].
      cbn [repeat drun dstep d_pc d_insts lost shutdown_step]. rewrite X. rewrite (A i) by (eapply nth_error_In; exact X). exact R. }
  assert (W' : forall k, exists n s', drun (repeat DMain n) (DWorld il lo (DShutdown (SAwait k))) = Some s' /\ d_pc s' = DExited).
  { intros k. destruct (Nat.le_gt_cases k (length il)) as [L|L]; [apply (W (length il - k)); lia|].
    exists 2. eexists. cbn. rewrite (proj2 (nth_error_None il k)) by lia. split; reflexivity. }
  destruct p as [|[|k|]|]; [destruct (N eq_refl)| | | |].
  - assert (M : map suspend il = il). { clear - A. induction il as [|i l IH]; [reflexivity|]. cbn. rewrite (A i (or_introl eq_refl)), IH; [reflexivity|]. intros j J. apply A. now right. }
    destruct (W' 0) as [n [s' [R D]]]. exists (S n), s'. split; [|exact D]. cbn [repeat drun dstep d_pc d_insts lost shutdown_step]. rewrite M. exact R.
  - apply W'.
  - exists 1. eexists. split; reflexivity.
  - exists 0. eexists. split; reflexivity.
Qed.
(* If the message bus goes away (as when a session ends), the daemon goes on; when it is then told to terminate, it exits without waiting for any instance. *)
Theorem daemon_stop_refuted : forall l0, exists l s, drun l (dstart l0) = Some s /\ d_pc s = DExited /\ d_insts s = map suspend l0.
Proof.
  intros l0.
  assert (W : forall m k il, m + k = length il -> exists n, drun (repeat DMain n) (DWorld il true (DShutdown (SAwait k))) = Some (DWorld il true DExited)).
  { induction m as [|m IH]; intros k il E.
    - exists 2. cbn. rewrite (proj2 (nth_error_None il k)) by lia. reflexivity.
    - destruct (nth_error il k) as [i|] eqn:X; [|apply nth_error_None in X; lia]. destruct (IH (S k) il ltac:(lia)) as [n R]. exists (S n).
      cbn [repeat drun dstep d_pc d_insts lost shutdown_step]. rewrite X, orb_true_r. exact R. }
  destruct (W (length l0) 0 (map suspend l0)) as [n R]; [rewrite map_length; lia|].
  exists (DBusLost :: DTerminate :: DMain :: repeat DMain n). eexists. split; [exact R|]. auto.
Qed.
Print Assumptions daemon_stop.
Print Assumptions daemon_stop_progress.
Print Assumptions daemon_stop_refuted.

(* Non-vacuity *)
Example repaired_run : option_map (fun s => (m_pc s, insts s)) (run true [Die; Watch; Watch; Main; ConnEnd; Watch; Watch; Stop 1; Stop 0; Watch; Watch; Watch; Main] (start 1 [Running; Running])) =
  Some (MExited, [Stopped; Stopped]). Proof. reflexivity. Qed.
Example repaired_waits : run true [Die; Watch; Watch; Main; Main] (start 1 [Running]) = None /\ run true [Die; Watch; Watch; Main; ConnEnd; Watch; Watch; Watch] (start 1 [Running]) = None.
Proof. split; reflexivity. Qed.
Example daemon_run : option_map (fun s => (d_pc s, d_insts s)) (drun [DTerminate; DMain; DStop 0; DMain; DStop 1; DMain; DMain; DMain] (dstart [Running; Running])) = Some (DExited, [Stopped; Stopped]).
Proof. reflexivity. Qed.
Example daemon_waits : drun [DTerminate; DMain; DMain] (dstart [Running]) = None. Proof. reflexivity. Qed.
