(* RuntimeDaemonProps.v: C145. *)
From Verif Require Import RuntimeDaemon.
From Coq Require Import Lia.

(* ---- Specification: descriptors by their history ---- *)
Definition file_eqb (a b : file) : bool :=
  match a, b with Conn, Conn | ConnFile, ConnFile | ExecutorBin, ExecutorBin | LoaderBin, LoaderBin | CgroupDir, CgroupDir | Stdin, Stdin => true | _, _ => false end.
Definition is_open (l : list event) (f : file) : bool :=   (* the last thing that was done about it *)
  fold_left (fun s e => match e with Open g => if file_eqb f g then true else s | Close g => if file_eqb f g then false else s end) l false.
(* Nothing is closed that isn't open, nor opened twice *)
Fixpoint sound_from (before l : list event) : Prop :=
  match l with
  | [] => True
  | e :: t => match e with Open f => is_open before f = false | Close f => is_open before f = true end /\ sound_from (before ++ [e]) t
  end.
Definition sound (l : list event) : Prop := sound_from [] l.
Definition all_files : list file := [Conn; ConnFile; ExecutorBin; LoaderBin; CgroupDir; Stdin].
Definition open_files (c : client) : list file := filter (is_open (c_log c)) all_files.
(* The client's connection is kept open by the daemon or by the container *)
Definition connected (c : client) : Prop := In Conn (open_files c) \/ In ConnFile (open_files c) \/ c_child c = Alive.

(* ---- Invariant: the whole history by program counter ---- *)
Definition o1 := [Open Conn; Open ConnFile].
Definition o2 := o1 ++ [Close Conn].
Definition o3 (k : nat) := o2 ++ map Open (firstn k start_files).
Definition Inv (c : client) : Prop :=
  match c with
  | Client PFile l ch => l = [Open Conn] /\ ch = NoChild
  | Client PFailedConn l ch => l = [Open Conn] /\ ch = NoChild
  | Client PCloseConn l ch => l = o1 /\ ch = NoChild
  | Client (POpen k) l ch => (k <= 4)%nat /\ l = o3 k /\ ch = NoChild
  | Client PSpawn l ch => l = o3 4 /\ ch = NoChild
  | Client PConf l ch => l = o3 4 /\ (ch = Alive \/ ch = Zombie)
  | Client PCloseFile l ch => l = o3 4 ++ unwind 4 /\ (ch = Alive \/ ch = Zombie)
  | Client PWait l ch => l = o3 4 ++ unwind 4 ++ [Close ConnFile] /\ (ch = Alive \/ ch = Zombie)
  | Client PFailed l ch => (exists k, (k <= 4)%nat /\ l = o3 k ++ unwind k) /\ (ch = NoChild \/ ch = Reaped)
  | Client PEnd l ch => (l = [Open Conn; Close Conn] \/ exists k, (k <= 4)%nat /\ l = o3 k ++ unwind k ++ [Close ConnFile]) /\ (ch = NoChild \/ ch = Reaped)
  end.
Lemma hstep_inv ok c c' : Inv c -> hstep ok c = Some c' -> Inv c'.
Proof.
  destruct c as [p l ch]. destruct p; cbn [Inv hstep]; intros I H.
  - destruct I as (-> & ->). injection H as <-. destruct ok; cbn; auto.
  - destruct I as (-> & ->). injection H as <-. cbn. split; [lia|auto].
  - destruct I as (K & -> & ->). destruct k as [|[|[|[|[|k]]]]]; try lia; cbn [nth_error start_files] in H; injection H as <-; destruct ok; cbn [Inv].
    all: try (split; [lia|split; reflexivity]).
    all: try (split; reflexivity).
    + split; [exists 0; split; [lia|reflexivity]|auto].
    + split; [exists 1; split; [lia|reflexivity]|auto].
    + split; [exists 2; split; [lia|reflexivity]|auto].
    + split; [exists 3; split; [lia|reflexivity]|auto].
  - destruct I as (-> & ->). injection H as <-. destruct ok; cbn [Inv]; [auto|]. split; [exists 4; split; [lia|reflexivity]|auto].
  - destruct I as (-> & I). injection H as <-. destruct ok; cbn [Inv]; [auto|]. split; [exists 4; split; [lia|reflexivity]|auto].
  - destruct I as (-> & I). injection H as <-. cbn [Inv]. split; [reflexivity|assumption].
  - destruct I as (-> & [-> | ->]); [discriminate|]. injection H as <-. cbn [Inv]. split; [right; exists 4; split; [lia|reflexivity]|auto].
  - destruct I as ((k & K & ->) & I). injection H as <-. cbn [Inv]. split; [right; exists k; split; [lia|now rewrite <- app_assoc]|assumption].
  - destruct I as (-> & ->). injection H as <-. cbn [Inv]. auto.
  - discriminate.
Qed.
Lemma nth_upd l : forall i j c, nth_error (upd l i c) j = if i =? j then match nth_error l i with Some _ => Some c | None => None end else nth_error l j.
Proof.
  induction l as [|x l IH]; intros [|i] [|j] c; cbn; try reflexivity; [destruct (i =? j); reflexivity|]. apply IH.
Qed.
Lemma forall_upd (P : client -> Prop) l : forall i c, Forall P l -> P c -> Forall P (upd l i c).
Proof. induction l as [|x l IH]; intros [|i] c F C; cbn; auto; inversion_clear F; constructor; auto. Qed.
Lemma dstep_inv l x : Forall Inv l -> Forall Inv (dstep l x).
Proof.
  intro F. destruct x as [|i ok|i]; cbn [dstep].
  - apply Forall_app. split; [assumption|]. constructor; [cbn; auto|constructor].
  - destruct (nth_error l i) as [c|] eqn:E; [|assumption]. destruct (hstep ok c) as [c'|] eqn:H; [|assumption].
    apply forall_upd; [assumption|]. apply (hstep_inv ok c); [|assumption]. rewrite Forall_forall in F. apply F. eapply nth_error_In; exact E.
  - destruct (nth_error l i) as [[p g []]|] eqn:E; try assumption. apply forall_upd; [assumption|].
    rewrite Forall_forall in F. specialize (F _ (nth_error_In _ _ E)). destruct p; cbn [Inv] in *; intuition discriminate.
Qed.
Lemma drun_inv x : Forall Inv (drun x).
Proof.
  unfold drun. assert (F : Forall Inv []) by constructor. revert F. generalize (@nil client). induction x as [|e x IH]; intros l F; [assumption|]. cbn [fold_left]. apply IH. now apply dstep_inv.
Qed.
Lemma of_drun x i c : nth_error (drun x) i = Some c -> Inv c.
Proof. intro E. pose proof (drun_inv x) as F. rewrite Forall_forall in F. apply F. eapply nth_error_In; exact E. Qed.

(* ---- Theorems, for every client in every history ---- *)
Ltac small k K := destruct k as [|[|[|[|[|k]]]]]; [| | | | |lia].

(* Every descriptor is opened and closed properly; when the client's container runs or has ended, the daemon has none left, and it never has more than
   five of them; there are no zombies when it's over *)
Theorem descriptors : forall x i c, nth_error (drun x) i = Some c ->
  sound (c_log c) /\ (c_pc c = PWait \/ c_pc c = PEnd -> open_files c = []) /\ (length (open_files c) <= 5)%nat /\
  (c_pc c = PEnd -> c_child c = NoChild \/ c_child c = Reaped).
Proof.
  intros x i c E. apply of_drun in E. destruct c as [p l ch]. cbn [c_log c_pc c_child]. unfold sound, open_files. cbn [c_log]. destruct p; cbn [Inv] in E.
  - destruct E as (-> & ->). repeat split; try (intros [X | X]; discriminate); try discriminate; cbn; lia.
  - destruct E as (-> & ->). repeat split; try (intros [X | X]; discriminate); try discriminate; cbn; lia.
  - destruct E as (K & -> & ->). small k K; repeat split; try (intros [X | X]; discriminate); try discriminate; cbn; lia.
  - destruct E as (-> & ->). repeat split; try (intros [X | X]; discriminate); try discriminate; cbn; lia.
  - destruct E as (-> & _). repeat split; try (intros [X | X]; discriminate); try discriminate; cbn; lia.
  - destruct E as (-> & _). repeat split; try (intros [X | X]; discriminate); try discriminate; cbn; lia.
  - destruct E as (-> & _). repeat split; try discriminate; cbn; lia.
  - destruct E as ((k & K & ->) & _). small k K; repeat split; try (intros [X | X]; discriminate); try discriminate; cbn; lia.
  - destruct E as (-> & _). repeat split; try (intros [X | X]; discriminate); try discriminate; cbn; lia.
  - destruct E as ([-> | (k & K & ->)] & I).
    + repeat split; auto; cbn; lia.
    + small k K; (repeat split; auto; cbn; lia).
Qed.

(* The daemon's descriptors are few: none for the clients whose containers run or have ended *)
Definition settled (c : client) : bool := match c_pc c with PWait | PEnd => true | _ => false end.
Theorem descriptors_bounded : forall x,
  (length (flat_map open_files (drun x)) <= 5 * length (filter (fun c => negb (settled c)) (drun x)))%nat.
Proof.
  intro x. assert (G : forall l, (forall i c, nth_error l i = Some c -> (length (open_files c) <= 5)%nat /\ (settled c = true -> open_files c = [])) ->
    (length (flat_map open_files l) <= 5 * length (filter (fun c => negb (settled c)) l))%nat).
  { induction l as [|c l IH]; intro H; [cbn; lia|]. cbn [flat_map filter]. rewrite app_length. destruct (H 0 c eq_refl) as (A & B).
    assert (H' : forall i d, nth_error l i = Some d -> (length (open_files d) <= 5)%nat /\ (settled d = true -> open_files d = [])) by (intros i d; apply (H (S i))).
    specialize (IH H'). destruct (settled c); cbn [negb length].
    - rewrite (B eq_refl). cbn. lia.
    - lia. }
  apply G. intros i c E. destruct (descriptors x i c E) as (_ & A & B & _). split; [assumption|]. intro S. apply A. unfold settled in S.
  destruct (c_pc c); try discriminate; auto.
Qed.

(* The client is disconnected exactly when its container isn't there anymore, or could not be made: while it runs, only the container keeps the connection *)
Theorem connection : forall x i c, nth_error (drun x) i = Some c ->
  (c_pc c = PEnd -> ~ connected c) /\
  (c_pc c = PWait -> connected c <-> c_child c = Alive) /\
  (c_pc c <> PEnd -> c_pc c <> PWait -> connected c).
Proof.
  intros x i c E. apply of_drun in E. destruct c as [p l ch]. unfold connected, open_files. cbn [c_log c_pc c_child]. destruct p; cbn [Inv] in E.
  - destruct E as (-> & ->). split; [discriminate|]. split; [discriminate|]. intros _ _. left. cbn. auto.
  - destruct E as (-> & ->). split; [discriminate|]. split; [discriminate|]. intros _ _. left. cbn. auto.
  - destruct E as (K & -> & ->). split; [discriminate|]. split; [discriminate|]. intros _ _. right. left. small k K; cbn; auto.
  - destruct E as (-> & ->). split; [discriminate|]. split; [discriminate|]. intros _ _. right. left. cbn. auto.
  - destruct E as (-> & _). split; [discriminate|]. split; [discriminate|]. intros _ _. right. left. cbn. auto.
  - destruct E as (-> & _). split; [discriminate|]. split; [discriminate|]. intros _ _. right. left. cbn. auto.
  - destruct E as (-> & _). split; [discriminate|]. split; [|congruence]. intros _. cbn. tauto.
  - destruct E as ((k & K & ->) & _). split; [discriminate|]. split; [discriminate|]. intros _ _. right. left. small k K; cbn; auto.
  - destruct E as (-> & _). split; [discriminate|]. split; [discriminate|]. intros _ _. left. cbn. auto.
  - destruct E as (D & I). split; [intros _|split; [discriminate|congruence]].
    destruct D as [-> | (k & K & ->)]; [|small k K]; cbn; intuition congruence.
Qed.

(* A client never waits for anything but its own container, and nothing that happens to one client changes another *)
Theorem client_progress : forall x i c ok, nth_error (drun x) i = Some c -> hstep ok c = None ->
  c_pc c = PEnd \/ (c_pc c = PWait /\ c_child c = Alive).
Proof.
  intros x i c ok E H. apply of_drun in E. destruct c as [p l ch]. destruct p; cbn [hstep c_pc c_child Inv] in *; try discriminate; auto.
  - destruct (nth_error start_files k); discriminate.
  - destruct E as (_ & [-> | ->]); [auto|discriminate].
Qed.
Theorem clients_independent : forall x e j, (j < length (drun x))%nat -> (forall ok, e <> Handle j ok) -> e <> Exit j -> nth_error (drun (x ++ [e])) j = nth_error (drun x) j.
Proof.
  intros x e j L N1 N2. unfold drun. rewrite fold_left_app. cbn [fold_left]. fold (drun x). destruct e as [|k ok|k]; cbn [dstep].
  - now rewrite nth_error_app1.
  - destruct (nth_error (drun x) k) as [c|]; [|reflexivity]. destruct (hstep ok c) as [c'|]; [|reflexivity]. rewrite nth_upd.
    destruct (Nat.eqb_spec k j) as [-> | _]; [destruct (N1 ok eq_refl)|reflexivity].
  - destruct (nth_error (drun x) k) as [[p g []]|]; try reflexivity. rewrite nth_upd. destruct (Nat.eqb_spec k j) as [-> | _]; [destruct (N2 eq_refl)|reflexivity].
Qed.
(* The socket: exactly one source; nothing but a socket is removed *)
Theorem listens_exactly : forall count setting at_ removable r at',
  listen count setting at_ removable = (r, at') ->
  (r <> Exits <-> (count = 1 /\ setting = false) \/ (count = 0 /\ setting = true /\ (at_ = Absent \/ (at_ = Socket /\ removable = true)))) /\
  (at_ = OtherFile -> at' = OtherFile) /\ (setting = false \/ count <> 0 -> at' = at_) /\ (r = Bound <-> r <> Exits /\ setting = true).
Proof.
  intros count setting at_ removable r at' H. unfold listen in H. destruct (Nat.eqb_spec count 0) as [-> | N0].
  - destruct setting; cbn [andb negb Nat.eqb] in H.
    + destruct at_; [|destruct removable|]; injection H as <- <-; repeat split; intros; try congruence; try (right; auto); try (intuition congruence).
    + injection H as <- <-. repeat split; intros; try congruence; intuition congruence.
  - cbn [andb] in H. destruct (Nat.eqb_spec count 1) as [-> | N1]; [destruct setting|]; cbn [andb negb] in H; injection H as <- <-;
      repeat split; intros; try congruence; try (intuition congruence).
Qed.

(* Non-vacuity *)
Example all_ok : nth_error (drun (Accept :: repeat (Handle 0 true) 9)) 0 = Some (Client PCloseFile (o3 4 ++ unwind 4) Alive). Proof. reflexivity. Qed.
Example ended : exists l, nth_error (drun (Accept :: repeat (Handle 0 true) 10 ++ [Exit 0; Handle 0 true])) 0 = Some (Client PEnd l Reaped). Proof. eexists. reflexivity. Qed.
Example failing : exists l, nth_error (drun ([Accept; Accept] ++ repeat (Handle 1 true) 4 ++ [Handle 1 false; Handle 1 true])) 1 = Some (Client PEnd l NoChild). Proof. eexists. reflexivity. Qed.

Print Assumptions descriptors.
Print Assumptions descriptors_bounded.
Print Assumptions connection.
Print Assumptions client_progress.
Print Assumptions clients_independent.
Print Assumptions listens_exactly.
