(* DownloadProps.v: exporting a module into a file is all or nothing (C138). *)
From Verif Require Import Download.
From Coq Require Import Lia Arith.

(* What the process has received, and what the source told about the length: from the choices made *)
Fixpoint told (l : list choice) : option nat := match l with [] => None | Length n :: _ => Some n | _ :: t => told t end.
Definition prefix (a b : bytes) : Prop := exists c, b = a ++ c.
(* The source gives a prefix of the module, and tells the module's length. *)
Definition honest (m : bytes) (l : list choice) : Prop := prefix (data l) m /\ forall n, told l = Some n -> n = length m.

Definition got_n (x : stage) : option (nat * nat) := match x with Copying g n => Some (g, n) | _ => None end.
Definition special (e : option entry) : bool := match e with Some (Special _) => true | _ => false end.
Definition add_to (d : bytes) (e : option entry) : option entry := match e with Some (Special w) => Some (Special (w ++ d)) | _ => e end.

(* d: the data so far; n: the length told *)
Record Inv (named_ : bool) (old : option entry) (d : bytes) (n : option nat) (s : dstate) : Prop := {
  v_named : named s = named_;
  v_temp : st s <> Opening -> end_ s <> Failure -> temp_ s = (named_ && negb (special old))%bool;
  v_tempn : temp_ s = true -> named_ = true /\ special old = false;
  v_dest : end_ s <> Success -> dest s = if special old then (if named_ then add_to d old else old) else old;
  v_out : out s = if named_ then [] else d;
  v_tmp : match st s with
          | Opening | Getting => tmp s = None /\ d = [] /\ end_ s = Running
          | Making _ => tmp s = None /\ d = [] /\ end_ s = Running /\ temp_ s = true
          | Copying g k => g = length d /\ n = Some k /\ end_ s = Running /\ tmp s = (if temp_ s then Some (Regular d 384) else None)
          | Closing => n = Some (length d) /\ end_ s = Running /\ tmp s = (if temp_ s then Some (Regular d 384) else None)
          | Renaming => n = Some (length d) /\ end_ s = Running /\ temp_ s = true /\ tmp s = Some (Regular d 384)
          | Done => end_ s <> Running /\ (tmp s = None \/ tmp s = Some (Regular d 384) /\ temp_ s = true)
          end;
  v_len : match st s with Opening | Getting => n = None | Making k => n = Some k | _ => True end;
  v_success : end_ s = Success -> n = Some (length d) /\ tmp s = None /\
              dest s = (if named_ then if special old then add_to d old else Some (Regular d 384) else old) }.
Definition first (n : option nat) (c : choice) : option nat := match n with Some _ => n | None => told [c] end.
Lemma add_nil e : add_to [] e = e. Proof. destruct e as [[c m|w]|]; cbn; rewrite ?app_nil_r; reflexivity. Qed.
Lemma add_add a b e : add_to b (add_to a e) = add_to (a ++ b) e. Proof. destruct e as [[c m|w]|]; cbn; rewrite ?app_assoc; reflexivity. Qed.
Lemma special_add a e : special (add_to a e) = special e. Proof. now destruct e as [[c m|w]|]. Qed.
Lemma write_special b e : special e = true -> write b e = add_to b e. Proof. destruct e as [[c m|w]|]; cbn; intros H; try discriminate; reflexivity. Qed.

Lemma start_inv named old : Inv named old [] None (dstart named old).
Proof.
  constructor; cbn; try discriminate; auto.
  - intros H. destruct (H eq_refl).
  - intros _. destruct (special old); [|reflexivity]. destruct named; [now rewrite add_nil|reflexivity].
  - now destruct named.
Qed.
Ltac norm := repeat (subst; match goal with
  | X : ?a = ?a -> _ |- _ => specialize (X eq_refl)
  | X : ?a <> ?b -> _ |- _ => specialize (X ltac:(discriminate))
  | X : _ /\ _ |- _ => destruct X
  | X : ?a <> ?a |- _ => destruct (X eq_refl)
  | X : _ \/ _ |- _ => destruct X
  end); try discriminate; subst.
Lemma step_inv named old d n s c s' : Inv named old d n s -> dstep c s = Some s' -> Inv named old (d ++ data [c]) (first n c) s'.
Proof.
  intros [A B B' C D E L S] H. destruct s as [x nm tp de tm ou en]. cbn [Download.st Download.named temp_ dest tmp out end_] in *. subst nm.
  assert (SP : named = true -> tp = false -> x <> Opening -> en <> Failure -> special old = true).
  { intros X Y Z W. specialize (B Z W). subst. destruct (special old); [reflexivity|discriminate]. }
  destruct x as [| |k|g k| | |]; cbn [dstep Download.st] in H; destruct c as [| |k'|b|]; try discriminate H; cbn [data flat_map first told]; rewrite ?app_nil_r;
  destruct named, old as [[oc om|ow]|], tp; cbn [special negb andb add_to write Download.named Download.dest Download.temp_ Download.tmp Download.out] in *; norm;
    cbn [write] in H; try (match type of H with Some (if ?c then _ else _) = _ => match c with (_ =? _) => destruct c eqn:GK; [apply Nat.eqb_eq in GK; subst|] | _ => idtac end end); injection H as <-;
    (constructor; cbn [stop go Download.st Download.named temp_ dest tmp out end_ special negb andb add_to first told]; intros; norm; rewrite ?app_length, ?app_nil_r, ?app_assoc; repeat split; auto; try congruence; try (now right)).
Qed.
Lemma first_told l : forall n, fold_left first l n = match n with Some _ => n | None => told l end.
Proof.
  induction l as [|c l IH]; intros n; cbn [fold_left told]; [now destruct n|]. rewrite IH. destruct n; [reflexivity|]. cbn [first]. destruct c; reflexivity.
Qed.
Lemma data_cons c l : data (c :: l) = data [c] ++ data l.
Proof. unfold data. cbn [flat_map]. now rewrite app_nil_r. Qed.
Lemma run_inv l : forall named old d n s s', Inv named old d n s -> drun l s = Some s' -> Inv named old (d ++ data l) (fold_left first l n) s'.
Proof.
  induction l as [|c l IH]; intros named old d n s s' I R; cbn [drun fold_left] in *.
  - injection R as <-. change (data []) with (@nil N). now rewrite app_nil_r.
  - destruct (dstep c s) as [s1|] eqn:E; [|discriminate]. rewrite data_cons, app_assoc. exact (IH _ _ _ _ _ _ (step_inv _ _ _ _ _ _ _ I E) R).
Qed.
Lemma run_ok l named old s : drun l (dstart named old) = Some s -> Inv named old (data l) (told l) s.
Proof. intros R. pose proof (run_inv l _ _ _ _ _ _ (start_inv named old) R) as I. now rewrite first_told in I. Qed.
Lemma all_of_it m l : honest m l -> told l = Some (length (data l)) -> data l = m.
Proof.
  intros [[c E] H] T. specialize (H _ T). rewrite E, app_length in H. destruct c; [now rewrite app_nil_r in E|cbn in H; lia].
Qed.

(* The destination is a regular file, or doesn't exist: whatever happens and whenever the process is killed, the destination is what it was, or it is the
   whole module.  The command succeeds exactly in the latter case, and then the temporary file is gone. *)
Theorem export_all_or_nothing : forall m old l s, special old = false -> honest m l -> drun l (dstart true old) = Some s ->
  (end_ s <> Success /\ dest s = old) \/ (end_ s = Success /\ dest s = Some (Regular m 384) /\ tmp s = None).
Proof.
  intros m old l s SP H R. destruct (run_ok _ _ _ _ R) as [_ _ _ C _ _ _ S]. rewrite SP in *.
  destruct (end_ s) eqn:EE; [left; split; [discriminate|apply C; discriminate] | right | left; split; [discriminate|apply C; discriminate]].
  destruct (S eq_refl) as [T [X ->]]. rewrite (all_of_it _ _ H T). auto.
Qed.
(* Something else, and the standard output: what has been written is a part of the module from its beginning, and all of it in case of success. *)
Theorem export_to_device : forall m w l s, honest m l -> drun l (dstart true (Some (Special w))) = Some s ->
  exists d, prefix d m /\ dest s = Some (Special (w ++ d)) /\ tmp s = None /\ (end_ s = Success -> d = m).
Proof.
  intros m w l s H R. destruct (run_ok _ _ _ _ R) as [_ B B' C D E L S]. cbn [special add_to] in *. exists (data l).
  assert (T : temp_ s = false). { destruct (temp_ s) eqn:TE; [destruct (B' eq_refl); discriminate|reflexivity]. }
  split; [apply H|]. split; [|split].
  - destruct (end_ s) eqn:EE; [apply C; discriminate | apply S; reflexivity | apply C; discriminate].
  - rewrite T in E. destruct (st s); try (apply E); destruct E as [_ E]; try (destruct E as [_ [X _]]; discriminate X). destruct E as [E|[_ X]]; [exact E|discriminate X].
  - intros X. destruct (S X) as [Y _]. exact (all_of_it _ _ H Y).
Qed.
Theorem export_to_stdout : forall m old l s, honest m l -> drun l (dstart false old) = Some s ->
  prefix (out s) m /\ dest s = old /\ (end_ s = Success -> out s = m).
Proof.
  intros m old l s H R. destruct (run_ok _ _ _ _ R) as [_ _ _ C D _ _ S]. rewrite D. split; [apply H|]. split.
  - destruct (end_ s) eqn:EE; [rewrite C by discriminate; now destruct (special old) | destruct (S eq_refl) as [_ [_ ->]]; reflexivity | rewrite C by discriminate; now destruct (special old)].
  - intros X. destruct (S X) as [Y _]. exact (all_of_it _ _ H Y).
Qed.
Print Assumptions export_all_or_nothing.
Print Assumptions export_to_device.
Print Assumptions export_to_stdout.

(* Success is possible, for every module however it is divided. *)
Theorem export_can_succeed : forall named old pieces, exists s, drun (Ok :: Length (length (concat pieces)) :: (if (named && negb (special old))%bool then [Ok] else []) ++
    map Piece pieces ++ EndOfStream :: Ok :: (if (named && negb (special old))%bool then [Ok] else [])) (dstart named old) = Some s /\ end_ s = Success.
Proof.
  intros named old pieces.
  assert (G : forall ps nm tp de tm ou g n tail, (tp = true -> nm = true) -> exists de' tm' ou',
    drun (map Piece ps ++ tail) (DState (Copying g n) nm tp de tm ou Running) = drun tail (DState (Copying (g + length (concat ps)) n) nm tp de' tm' ou' Running)).
  { induction ps as [|p ps IH]; intros nm tp de tm ou g n tail X; cbn [map app concat].
    - exists de, tm, ou. now rewrite Nat.add_0_r.
    - rewrite app_length, Nat.add_assoc. cbn [drun dstep Download.st temp_ Download.named dest tmp out].
      destruct tp; [rewrite (X eq_refl)|destruct nm]; cbn [go Download.named temp_ dest tmp out end_]; apply IH; auto; discriminate. }
  set (n := length (concat pieces)). set (q := (named && negb (special old))%bool).
  assert (O : drun [Ok] (dstart named old) = Some (DState Getting named q old None [] Running)).
  { subst q. destruct named; [|reflexivity]. destruct old as [[c m|w]|]; reflexivity. }
  cbn [drun] in O. cbn [drun]. destruct (dstep Ok (dstart named old)) as [s0|]; [|discriminate]. injection O as ->.
  cbn [drun dstep Download.st temp_ go Download.named dest tmp out end_].
  assert (Q : q = true -> named = true) by (subst q; destruct named; [reflexivity|discriminate]).
  destruct q.
  - destruct (G pieces named true old (Some (Regular [] 384)) [] 0 n [EndOfStream; Ok; Ok] Q) as [de [tm [ou E]]].
    eexists. split; [refine (eq_trans E _); cbn [drun dstep Download.st]; rewrite Nat.add_0_l; fold n; rewrite Nat.eqb_refl; reflexivity | reflexivity].
  - destruct (G pieces named false old None [] 0 n [EndOfStream; Ok] Q) as [de [tm [ou E]]].
    eexists. split; [refine (eq_trans E _); cbn [drun dstep Download.st]; rewrite Nat.add_0_l; fold n; rewrite Nat.eqb_refl; reflexivity | reflexivity].
Qed.
Print Assumptions export_can_succeed.

(* Nothing is left behind if getting the module fails. *)
Theorem export_get_failure_clean : forall old s, drun [Ok; Fail] (dstart true old) = Some s -> dest s = old /\ tmp s = None /\ end_ s = Failure.
Proof. intros [[c m|w]|] s H; cbn in H; injection H as <-; auto. Qed.
(* But later failures leave the temporary file, with whatever was received: log.Fatal exits without running the deferred removal. *)
Theorem export_failure_clean_refuted : forall m d old, special old = false -> prefix d m ->
  exists l s, honest m l /\ drun l (dstart true old) = Some s /\ end_ s = Failure /\ dest s = old /\ tmp s = Some (Regular d 384).
Proof.
  intros m d old SP P. exists [Ok; Length (length m); Ok; Piece d; Fail]. eexists. split; [split|].
  - unfold data. cbn. now rewrite app_nil_r.
  - cbn. intros n E. now injection E as <-.
  - destruct old as [[c q|w]|]; try discriminate SP; cbn; (split; [reflexivity|]); auto.
Qed.
(* And an existing file's permissions are lost: the new file is readable only to its owner. *)
Theorem export_mode_refuted : forall m c mode, mode <> 384%N -> exists l s, honest m l /\ drun l (dstart true (Some (Regular c mode))) = Some s /\ end_ s = Success /\
  exists mode', dest s = Some (Regular m mode') /\ mode' <> mode.
Proof.
  intros m c mode N. destruct (export_can_succeed true (Some (Regular c mode)) [m]) as [s [R E]]. cbn [special negb andb] in R. eexists _, s.
  assert (H : honest m ([Ok; Length (length m); Ok; Piece m; EndOfStream; Ok; Ok])).
  { split; [exists []; unfold data; cbn; now rewrite !app_nil_r | cbn; intros n X; now injection X as <-]. }
  cbn [concat app map] in R. rewrite app_nil_r in R. split; [exact H|]. split; [exact R|]. split; [exact E|].
  destruct (export_all_or_nothing m (Some (Regular c mode)) _ _ eq_refl H R) as [[F _]|[_ [D _]]]; [contradiction|]. exists 384%N. split; [exact D|congruence].
Qed.
Print Assumptions export_get_failure_clean.
Print Assumptions export_failure_clean_refuted.
Print Assumptions export_mode_refuted.

(* Non-vacuity: the process is killed before the renaming, and after it; a source that ends early *)
Definition ex_old : option entry := Some (Regular [9%N] 420).
Example killed_before : option_map (fun s => (dest s, tmp s)) (drun [Ok; Length 2; Ok; Piece [1%N]; Piece [2%N]; EndOfStream; Ok] (dstart true ex_old)) = Some (ex_old, Some (Regular [1%N; 2%N] 384)).
Proof. reflexivity. Qed.
Example killed_after : option_map (fun s => (dest s, tmp s)) (drun [Ok; Length 2; Ok; Piece [1%N]; Piece [2%N]; EndOfStream; Ok; Ok] (dstart true ex_old)) = Some (Some (Regular [1%N; 2%N] 384), None).
Proof. reflexivity. Qed.
Example ended_early : option_map (fun s => (dest s, end_ s)) (drun [Ok; Length 2; Ok; Piece [1%N]; EndOfStream] (dstart true ex_old)) = Some (ex_old, Failure) /\
  honest [1%N; 2%N] [Ok; Length 2; Ok; Piece [1%N]; EndOfStream].
Proof. split; [reflexivity|]. split; [exists [2%N]; reflexivity|]. cbn. intros n E. now injection E as <-. Qed.
