(* ServerStartProps.v: C149. *)
From Verif Require Import ServerStart WebmonitorProps.
From Coq Require Import Lia.
Open Scope nat_scope.

(* ---- Specification ---- *)
(* What a configuration needs to succeed *)
Definition needed (c : config) (o : operation) : Prop :=
  match o with
  | ListenMonitor => monitor_addr c <> []
  | NewExecutor i => i < executors c
  | OpenFilesystem => var_dir c = true
  | FindHome => access c = Ssh /\ keys_file c = false
  | ParseKeys => access c = Ssh
  | SplitAddr => authority c = false
  | OpenDB => access_db c = true
  | NewServer | NewHandler | Listen | ClearCaps | NotifyReady => True
  | OpenLog => access_log c = true
  | ListenAcme => tls c = true
  | _ => False
  end.
Definition valid (c : config) : Prop :=
  programs c <> UnknownStorage /\ instances c <> UnknownStorage /\ access c <> UnknownPolicy /\ (snide c = true -> tls c = true) /\ (tls c = true -> accept_tos c = true).
Definition done (l : list (operation * bool)) (o : operation) : Prop := In (o, true) l.
(* What is opened, and what closes it *)
Definition closing (o : operation) : option operation :=
  match o with OpenFilesystem => Some CloseFilesystem | OpenDB => Some CloseDB | OpenLog => Some CloseLog | Listen => Some CloseListener | _ => None end.
Definition is_closing (o : operation) : bool := match o with CloseFilesystem | CloseDB | CloseLog | CloseListener => true | _ => false end.
(* What closes those that have been opened, the last one first *)
Definition closes (l : list (operation * bool)) : list operation :=
  rev (flat_map (fun x => match x with (o, true) => match closing o with Some k => [k] | None => [] end | _ => [] end) l).

(* ---- Running ---- *)
Definition pass (w : operation -> bool) (i : instr) : bool := match i with Try o => w o | Require b => b | Defer _ => true end.
Fixpoint tries (l : list instr) : list operation := match l with [] => [] | Try o :: t => o :: tries t | _ :: t => tries t end.
Fixpoint defers (l : list instr) : list operation := match l with [] => [] | Defer o :: t => o :: defers t | _ :: t => defers t end.
Definition ok (o : operation) : operation * bool := (o, true).
(* A run is a prefix of the program, in which everything passes, an instruction which doesn't (unless it's the whole), and the deferred calls *)
Lemma run_spec w l : forall d, exists a b, l = a ++ b /\ forallb (pass w) a = true /\
  ((b = [] /\ run w l d = map ok (tries a) ++ map ok (rev (defers a) ++ d)) \/
   (exists i b', b = i :: b' /\ pass w i = false /\
      run w l d = map ok (tries a) ++ match i with Try o => [(o, false)] | _ => [] end ++ map ok (rev (defers a) ++ d))).
Proof.
  induction l as [|x l IH]; intros d.
  - exists [], []. cbn. auto.
  - destruct x as [o|b|o]; cbn [run].
    + destruct (w o) eqn:E.
      * destruct (IH d) as (a & b & -> & P & R). exists (Try o :: a), b. split; [reflexivity|]. split; [cbn; rewrite E; exact P|].
        destruct R as [[-> R]|(i & b' & -> & Pi & R)]; [left; split; auto|right; exists i, b'; split; auto; split; auto]; rewrite R; reflexivity.
      * exists [], (Try o :: l). split; [reflexivity|]. split; [reflexivity|]. right. exists (Try o), l. auto.
    + destruct b.
      * destruct (IH d) as (a & b & -> & P & R). exists (Require true :: a), b. split; [reflexivity|]. split; [exact P|]. exact R.
      * exists [], (Require false :: l). split; [reflexivity|]. split; [reflexivity|]. right. exists (Require false), l. auto.
    + destruct (IH (o :: d)) as (a & b & -> & P & R). exists (Defer o :: a), b. split; [reflexivity|]. split; [exact P|].
      cbn [tries defers rev]. rewrite <- app_assoc. exact R.
Qed.
Lemma run_all w l d : forallb (pass w) l = true -> run w l d = map ok (tries l) ++ map ok (rev (defers l) ++ d).
Proof.
  intros H. destruct (run_spec w l d) as (a & b & -> & P & [[-> R]|(i & b' & -> & Pi & R)]).
  - rewrite app_nil_r in *. exact R.
  - rewrite forallb_app in H. cbn in H. rewrite Pi in H. rewrite andb_false_r in H. discriminate.
Qed.
Definition effective (w : operation -> bool) (o : operation) : bool := match o with ServeMonitor | ServeAcme | Serve => true | _ => w o end.
Lemma tries_app a b : tries (a ++ b) = tries a ++ tries b.
Proof. induction a as [|[]]; cbn; auto. rewrite IHa. reflexivity. Qed.
Lemma defers_app a b : defers (a ++ b) = defers a ++ defers b.
Proof. induction a as [|[]]; cbn; auto. rewrite IHa. reflexivity. Qed.
Lemma pass_if w b l : forallb (pass w) (if_ b l) = true <-> (b = true -> forallb (pass w) l = true).
Proof. destruct b; cbn; split; intros H; auto; intros; discriminate. Qed.
Lemma pass_main2 w c : forallb (pass (effective w)) (main2 c) = true <-> valid c /\ forall o, needed c o -> w o = true.
Proof.
  unfold main2. rewrite !forallb_app, !andb_true_iff, !pass_if.
  assert (X : forallb (pass (effective w)) (map (fun i => Try (NewExecutor i)) (seq 0 (executors c))) = true <-> forall i, i < executors c -> w (NewExecutor i) = true).
  { rewrite forallb_forall. split.
    - intros H i Hi. apply (H (Try (NewExecutor i))). apply in_map_iff. exists i. split; auto. apply in_seq. lia.
    - intros H x Hx. apply in_map_iff in Hx. destruct Hx as (i & <- & Hi). apply in_seq in Hi. apply H. lia. }
  rewrite X. clear X. cbn [forallb pass effective]. rewrite ?andb_true_iff.
  assert (M : negb (is_empty (monitor_addr c)) = true <-> monitor_addr c <> []) by (destruct (monitor_addr c); cbn; split; congruence).
  assert (K : forall s, known s = true <-> s <> UnknownStorage) by (intros []; cbn; split; congruence).
  rewrite M, !K, !negb_true_iff. unfold valid. split.
  - intros (A1 & A2 & A3 & (A4 & A5 & _) & A6 & A7 & A8 & (A9 & A10 & _) & A11 & A12 & (A13 & _) & A14 & (A15 & A16 & _)).
    split.
    + split; [exact A4|]. split; [exact A5|]. split; [intros E; rewrite E in A6; discriminate|]. split; intros E; [apply A12 in E|apply A14 in E]; tauto.
    + intros [] N; cbn in N; try contradiction; auto; try (apply A1 in N; tauto); try (apply A3 in N; tauto); try (apply A7 in N; tauto); try (apply A8 in N; tauto);
        try (apply A11 in N; tauto); try (apply A14 in N; tauto).
      * destruct N as [N1 N2]. rewrite N1, N2 in A6. cbn in A6. rewrite !andb_true_iff in A6. tauto.
      * rewrite N in A6. rewrite forallb_app, andb_true_iff in A6. cbn in A6. rewrite andb_true_iff in A6. tauto.
  - intros ((V1 & V2 & V3 & V4 & V5) & N).
    assert (G : forall o, needed c o -> w o = true) by exact N.
    repeat split; auto; try (apply G; cbn; auto); try (intros E; repeat split; auto; apply G; cbn; auto).
    destruct (access c) eqn:Ea; [reflexivity| |congruence]. rewrite forallb_app, andb_true_iff, pass_if, negb_true_iff. split.
    + intros Ek. cbn. rewrite (G FindHome) by (cbn; auto). reflexivity.
    + cbn. rewrite (G ParseKeys) by (cbn; auto). reflexivity.
Qed.

(* ---- Theorems ---- *)
Lemma main2_end c : exists a, main2 c = a ++ [Try ClearCaps; Try NotifyReady; Try Serve] /\ ~ In Serve (tries a) /\ ~ In ClearCaps (tries a) /\ ~ In NotifyReady (tries a).
Proof.
  unfold main2. eexists. split; [rewrite !app_assoc; reflexivity|].
  assert (E : forall n, tries (map (fun i => Try (NewExecutor i)) (seq 0 n)) = map NewExecutor (seq 0 n)).
  { intros n. generalize 0. induction n; intros k; cbn; [reflexivity|]. rewrite IHn. reflexivity. }
  rewrite !tries_app, E. rewrite !in_app_iff, !in_map_iff. unfold if_.
  repeat split; intros H; repeat match goal with
    | H : _ \/ _ |- _ => destruct H
    | H : exists _, _ |- _ => destruct H
    | H : _ /\ _ |- _ => destruct H
    | H : In _ (tries (if ?b then _ else _)) |- _ => destruct b; cbn in H
    | H : In _ (tries (match ?b with Public => _ | Ssh => _ | UnknownPolicy => _ end)) |- _ => destruct b; cbn in H
    | H : In _ (tries (_ ++ _)) |- _ => rewrite tries_app, in_app_iff in H
    | H : In _ (tries _) |- _ => cbn in H
    | H : False |- _ => destruct H
    | H : _ = _ |- _ => discriminate H
    end.
Qed.
Lemma defers_main2 c o : In o (defers (main2 c)) -> o <> Serve /\ o <> ClearCaps /\ o <> NotifyReady.
Proof.
  unfold main2. rewrite !defers_app.
  assert (E : forall n, defers (map (fun i => Try (NewExecutor i)) (seq 0 n)) = []).
  { intros n. generalize 0. induction n; intros k; cbn; auto. }
  rewrite E. unfold if_. intros H. rewrite !in_app_iff in H.
  repeat match goal with
    | H : _ \/ _ |- _ => destruct H
    | H : In _ (defers (if ?b then _ else _)) |- _ => destruct b; cbn in H
    | H : In _ (defers (match ?b with Public => _ | Ssh => _ | UnknownPolicy => _ end)) |- _ => destruct b; cbn in H
    | H : In _ (defers (_ ++ _)) |- _ => rewrite defers_app, in_app_iff in H
    | H : In _ (defers _) |- _ => cbn in H
    | H : In _ [] |- _ => destruct H
    | H : False |- _ => destruct H
    | H : _ = _ |- _ => subst o
    end; repeat split; discriminate.
Qed.
(* API requests are served exactly if the configuration is valid and each operation that it needs succeeds; and then what is done before that is: everything
   needed, clearing the capabilities and telling that the server is ready, in this order *)
Theorem starts_exactly : forall w c, done (start w c) Serve <-> valid c /\ forall o, needed c o -> w o = true.
Proof.
  intros w c. rewrite <- pass_main2. unfold start, done. fold (effective w). destruct (main2_end c) as (a & Ea & N1 & _).
  assert (D : forall a b, main2 c = a ++ b -> ~ In (ok Serve) (map ok (rev (defers a) ++ []))).
  { intros a0 b0 E H. apply in_map_iff in H. destruct H as (o & X & H). injection X as ->. rewrite app_nil_r in H. apply in_rev in H.
    assert (H' : In Serve (defers (main2 c))) by (rewrite E, defers_app; apply in_app_iff; auto). apply defers_main2 in H'. tauto. }
  split.
  - intros H. destruct (run_spec (effective w) (main2 c) []) as (x & y & E & P & [[-> R]|(i & b' & -> & Pi & R)]).
    + rewrite app_nil_r in E. rewrite E. exact P.
    + exfalso. change (fun o : operation => match o with ServeMonitor | ServeAcme | Serve => true | _ => w o end) with (effective w) in H.
      rewrite R in H. rewrite !in_app_iff in H. destruct H as [H|[H|H]].
      * apply in_map_iff in H. destruct H as (o & X & H). injection X as ->.
        assert (Y : exists z, x = a ++ [Try ClearCaps; Try NotifyReady; Try Serve] ++ z \/ exists z', a ++ [Try ClearCaps; Try NotifyReady] = x ++ z').
        { rewrite Ea in E. clear - E. revert E. generalize (i :: b') as y. intros y E.
          change (a ++ [Try ClearCaps; Try NotifyReady; Try Serve]) with (a ++ [Try ClearCaps; Try NotifyReady] ++ [Try Serve]) in E. rewrite app_assoc in E.
          destruct y as [|q y _] using rev_ind.
          - exists []. left. rewrite !app_nil_r in *. rewrite <- E. rewrite <- app_assoc. reflexivity.
          - exists []. right. exists y. rewrite app_assoc in E. apply app_inj_tail in E. destruct E as [E _]. exact E. }
        destruct Y as (z & [Y|(z' & Y)]).
        -- rewrite Y in E. rewrite Ea in E. apply (f_equal (@length instr)) in E. rewrite !app_length in E. cbn in E. lia.
        -- assert (Q : In Serve (tries (a ++ [Try ClearCaps; Try NotifyReady]))) by (rewrite Y, tries_app; apply in_app_iff; auto).
           rewrite tries_app, in_app_iff in Q. cbn in Q. intuition discriminate.
      * destruct i; cbn in H; try contradiction. destruct H as [H|[]]. discriminate.
      * exact (D _ _ E H).
  - intros H. change (fun o : operation => match o with ServeMonitor | ServeAcme | Serve => true | _ => w o end) with (effective w). rewrite run_all by exact H.
    apply in_app_iff. left. apply in_map_iff. exists Serve. split; auto. rewrite Ea, tries_app. apply in_app_iff. right. cbn. auto.
Qed.
Print Assumptions starts_exactly.
Theorem serving_last : forall w c, done (start w c) Serve -> exists a b,
  start w c = a ++ [ok ClearCaps; ok NotifyReady; ok Serve] ++ b /\ (forall o, needed c o -> o <> ClearCaps -> o <> NotifyReady -> done a o) /\ (forall o, done b o -> exists x, closing x = Some o).
Proof.
  intros w c H. apply starts_exactly in H. pose proof H as V. rewrite <- pass_main2 in H. unfold start. fold (effective w). change (fun o : operation => match o with ServeMonitor | ServeAcme | Serve => true | _ => w o end) with (effective w).
  rewrite run_all by exact H. destruct (main2_end c) as (a & Ea & _). exists (map ok (tries a)), (map ok (rev (defers (main2 c)) ++ [])). split; [|split].
  - rewrite Ea at 1. rewrite tries_app, map_app, <- app_assoc. reflexivity.
  - intros o N N1 N2. apply in_map_iff. exists o. split; auto.
    assert (T : In o (tries (main2 c))).
    { unfold main2. rewrite !tries_app, !in_app_iff.
      assert (E : forall n, tries (map (fun i => Try (NewExecutor i)) (seq 0 n)) = map NewExecutor (seq 0 n)).
      { intros n. generalize 0. induction n; intros k; cbn; [reflexivity|]. rewrite IHn. reflexivity. }
      rewrite E. destruct o; cbn in N; try contradiction; try congruence; cbn.
      - left. destruct (monitor_addr c); [congruence|]. cbn. auto.
      - right. left. apply in_map. apply in_seq. lia.
      - rewrite N. cbn. tauto.
      - destruct N as [Na Nk]. rewrite Na, Nk. cbn. tauto.
      - rewrite N. rewrite !tries_app, !in_app_iff. cbn. tauto.
      - rewrite N. cbn. tauto.
      - rewrite N. cbn. tauto.
      - tauto.
      - tauto.
      - rewrite N. cbn. tauto.
      - tauto.
      - rewrite N. cbn. tauto. }
    rewrite Ea, tries_app, in_app_iff in T. destruct T as [T|[T|[T|[T|[]]]]]; auto; try congruence. subst o. destruct N.
  - intros o D. unfold done in D. apply in_map_iff in D. destruct D as (x & X & D). injection X as ->. rewrite app_nil_r in D. apply in_rev in D.
    unfold main2 in D. rewrite !defers_app in D.
    assert (E : forall n, defers (map (fun i => Try (NewExecutor i)) (seq 0 n)) = []).
    { intros n. generalize 0. induction n; intros k; cbn; auto. }
    rewrite E in D. unfold if_ in D. rewrite !in_app_iff in D.
    repeat match goal with
      | H : _ \/ _ |- _ => destruct H
      | H : In _ (defers (if ?b then _ else _)) |- _ => destruct b; cbn in H
      | H : In _ (defers (match ?b with Public => _ | Ssh => _ | UnknownPolicy => _ end)) |- _ => destruct b; cbn in H
      | H : In _ (defers (_ ++ _)) |- _ => rewrite defers_app, in_app_iff in H
      | H : In _ (defers _) |- _ => cbn in H
      | H : In _ [] |- _ => destruct H
      | H : False |- _ => destruct H
      | H : _ = _ |- _ => subst o
      end; [exists OpenFilesystem|exists OpenDB|exists OpenLog|exists Listen]; reflexivity.
Qed.
Print Assumptions serving_last.

(* ---- The monitor page ---- *)
Theorem page_exactly : forall c header, check_origin (page_origins c) header = true <->
  match ServerStart.monitor_origins c with
  | Some l => In header l /\ header <> []
  | None => (forall r, monitor_addr c <> localhost_ ++ r) \/ header = http_ ++ monitor_addr c
  end.
Proof.
  assert (P : forall p t, has_prefix p t = true <-> exists r, t = p ++ r).
  { induction p as [|a p IH]; intros t; cbn; [split; eauto|]. destruct t as [|b t]; [split; [discriminate|intros (r & H); discriminate]|].
    rewrite andb_true_iff, Z.eqb_eq, IH. split; [intros (-> & r & ->); eauto|]. intros (r & H). injection H as -> ->. eauto. }
  intros c header. rewrite WebmonitorProps.monitor_origins. unfold page_origins. destruct (ServerStart.monitor_origins c) as [l|].
  - split; [intros [H|(x & H & A & B)]; [discriminate|injection H as <-; auto]|]. intros [A B]. right. exists l. auto.
  - destruct (has_prefix localhost_ (monitor_addr c)) eqn:E.
    + apply P in E. destruct E as (r & E). split.
      * intros [H|(x & H & A & B)]; [discriminate|]. injection H as <-. destruct A as [<-|[]]. auto.
      * intros [H| ->]; [exfalso; apply (H r E)|]. right. eexists. split; [reflexivity|]. split; [left; reflexivity|discriminate].
    + split; auto. intros _. left. intros r H. assert (has_prefix localhost_ (monitor_addr c) = true) by (apply P; eauto). congruence.
Qed.
Print Assumptions page_exactly.

(* ---- Cleaning up ---- *)
Inductive paired : list instr -> Prop :=
| P_nil : paired []
| P_try o t : closing o = None -> is_closing o = false -> paired t -> paired (Try o :: t)
| P_open o k t : closing o = Some k -> is_closing o = false -> paired t -> paired (Try o :: Defer k :: t)
| P_require b t : paired t -> paired (Require b :: t).
Lemma paired_app a b : paired a -> paired b -> paired (a ++ b).
Proof. intros H Hb. induction H; cbn; [auto|constructor; auto|apply P_open; auto|constructor; auto]. Qed.
Lemma paired_main2 c : paired (main2 c).
Proof.
  unfold main2, if_. repeat apply paired_app; repeat match goal with |- paired (if ?b then _ else _) => destruct b | |- context [match access c with _ => _ end] => destruct (access c) end;
    try (repeat constructor; reflexivity); try (repeat (first [apply P_nil|apply P_require|apply P_open; [reflexivity|reflexivity|]|apply P_try; [reflexivity|reflexivity|]])).
  - generalize 0. induction (executors c) as [|n IH]; intros k; cbn; constructor; auto.
  - destruct (negb (keys_file c)); cbn; repeat (first [apply P_nil|apply P_try; [reflexivity|reflexivity|]]).
Qed.
Lemma run_paired w l : paired l -> forall d, exists body, run w l d = body ++ map ok (closes body ++ d) /\ forall o, In o (map fst body) -> is_closing o = false.
Proof.
  intros H. induction H as [|o t C1 C2 H IH|o k t C1 C2 H IH|b t H IH]; intros d; cbn [run].
  - exists []. cbn. split; [reflexivity|intros o []].
  - destruct (w o).
    + destruct (IH d) as (body & R & N). exists ((o, true) :: body). rewrite R. unfold closes. cbn. rewrite C1. cbn. split; [reflexivity|]. intros x [<-|X]; auto.
    + exists [(o, false)]. cbn. split; [reflexivity|]. intros x [<-|[]]; auto.
  - destruct (w o).
    + destruct (IH (k :: d)) as (body & R & N). exists ((o, true) :: body). rewrite R. unfold closes. cbn. rewrite C1. cbn. rewrite <- app_assoc. split; [reflexivity|]. intros x [<-|X]; auto.
    + exists [(o, false)]. cbn. split; [reflexivity|]. intros x [<-|[]]; auto.
  - destruct b; [apply IH|]. exists []. cbn. split; [reflexivity|intros o []].
Qed.
(* However far it gets, exactly what has been opened is closed at the end, in reverse order *)
Theorem start_closes : forall w c, exists body, start w c = body ++ map ok (closes body) /\ forall o, In o (map fst body) -> is_closing o = false.
Proof.
  intros w c. destruct (run_paired (effective w) (main2 c) (paired_main2 c) []) as (body & R & N). exists body. split; auto.
  rewrite app_nil_r in R. exact R.
Qed.
Print Assumptions start_closes.

(* ---- What isn't so ---- *)
Definition example : config := Config [] None 1 true Filesystem Memory Public false false false false false false false.
(* "The monitor page is for the local host unless configured otherwise": 127.0.0.1:80 *)
Theorem page_restricted_refuted : exists c, ServerStart.monitor_origins c = None /\ monitor_addr c <> [] /\ forall header, check_origin (page_origins c) header = true.
Proof. exists (Config [49;50;55;46;48;46;48;46;49;58;56;48]%Z None 1 true Memory Memory Public false false false false false false false). repeat split. discriminate. Qed.
Print Assumptions page_restricted_refuted.
(* "No requests are served while the server has capabilities": the monitor and the ACME server are started before they're cleared *)
Theorem no_requests_with_capabilities_refuted : exists c, forall w, (forall o, w o = true) -> exists a b, start w c = a ++ [ok ServeMonitor] ++ b /\ done b ServeAcme /\ done b ClearCaps /\
  exists b1 b2, b = b1 ++ [ok ServeAcme; ok ClearCaps] ++ b2.
Proof.
  exists (Config [58;56;48]%Z None 0 false Memory Memory Public false true false false false true true). intros w H.
  unfold start. cbn. rewrite !H. exists [ok ListenMonitor]. eexists. split; [reflexivity|]. unfold done. cbn. split; [tauto|]. split; [tauto|].
  exists [ok NewServer; ok NewHandler; ok Listen; ok ListenAcme]. eexists. reflexivity.
Qed.
Print Assumptions no_requests_with_capabilities_refuted.
(* "A server which serves can store": with filesystem storage but no directory it starts, without a storage *)
Theorem serving_can_store_refuted : exists c, valid c /\ (forall w, (forall o, w o = true) -> done (start w c) Serve) /\ usable (programs c) c = false.
Proof.
  exists (Config [] None 1 false Filesystem Memory Public false false false false false false false). split; [|split; [|reflexivity]].
  - repeat split; discriminate.
  - intros w H. apply starts_exactly. split; [repeat split; discriminate|auto].
Qed.
Print Assumptions serving_can_store_refuted.

(* ---- Examples ---- *)
Example failing_listen : start (fun o => match o with Listen => false | _ => true end) example =
  [ok (NewExecutor 0); ok OpenFilesystem; ok SplitAddr; ok NewServer; ok NewHandler; (Listen, false); ok CloseFilesystem].
Proof. reflexivity. Qed.
Example example_valid : valid example /\ done (start (fun _ => true) example) Serve.
Proof. split; [repeat split; discriminate|]. cbn. unfold done. cbn. tauto. Qed.
