(* WebsocketProps.v: websocket connections (C115). *)
From Verif Require Import BaseLemmas WebsocketSpec.

Definition rholds (p : rpc) : bool := match p with RHave | RWriting | RStore | RUnlock => true | _ => false end.
Definition wholds (p : wpc) : bool := match p with WHave true | WWriting true | WUnlock => true | _ => false end.

Record winv (s : ws) : Prop := {
  j_lock : w_lock s = xorb (rholds (r_pc s)) (wholds (w_pc s));
  j_excl : rholds (r_pc s) && wholds (w_pc s) = false;
  j_hint : match r_pc s with RIdle => True | RUnlock => w_hint s = true | _ => w_hint s = false end;
  j_free : match w_pc s with WHave false | WWriting false => w_hint s = true | _ => True end;
  j_rtodo : r_pc s <> RIdle -> r_todo s <> [];
  j_wtodo : match w_pc s with WIdle | WUnlock => True | _ => w_todo s <> [] end;
  j_rerr : r_pc s = RWriting -> w_err s = false;
  j_werr : match w_pc s with WWriting _ => w_err s = false | _ => True end;
  j_att : if w_err s then exists l m, w_attempts s = l ++ [(m, false)] /\ Forall (fun x => snd x = true) l
          else Forall (fun x => snd x = true) (w_attempts s);
  j_hints : (length (filter is_hint (w_attempts s)) <=
             (if w_hint s then 1 else match r_pc s with RStore => 1 | _ => 0 end))%nat;
  j_told0 : w_hint s = true -> r_done s = [] -> r_pc s = RUnlock;
  j_rdw : r_pc s = RWriting -> hd_error (r_todo s) = Some Rd;
  j_told : match r_done s with
           | [] => match r_pc s, r_todo s with
                   | (RStore | RUnlock), Rd :: _ => w_err s = true \/ Exists (fun m => is_hint m = true) (w_attempts s)
                   | _, _ => True end
           | Rd :: _ => w_err s = true \/ Exists (fun m => is_hint m = true) (w_attempts s)
           | Cl :: _ => True end }.

Lemma filter_snoc {A} (f : A -> bool) l x : length (filter f (l ++ [x])) = (length (filter f l) + (if f x then 1 else 0))%nat.
Proof. rewrite filter_app, app_length. cbn [filter]. destruct (f x); reflexivity. Qed.

Lemma all_ok_snoc l m (ok : bool) : Forall (fun x : message * bool => snd x = true) l ->
  if negb ok then exists l' m', l ++ [(m, ok)] = l' ++ [(m', false)] /\ Forall (fun x => snd x = true) l'
  else Forall (fun x => snd x = true) (l ++ [(m, ok)]).
Proof.
  intros F. destruct ok; cbn [negb].
  - apply Forall_app. split; [exact F|]. now repeat constructor.
  - now exists l, m.
Qed.

Lemma exists_snoc {A} (P : A -> Prop) l x : Exists P l -> Exists P (l ++ [x]).
Proof. intros E. apply Exists_app. now left. Qed.

Lemma winv_rstep ok s : winv s -> winv (rstep ok s).
Proof.
  intros [J1 J2 J3 J4 J5 J6 J7 J8 J9 J10 J11 J12 J13]. destruct s as [hint lock err rp rt rd wp wt wr at_]. cbn in J1, J2, J3, J4, J5, J6, J7, J8, J9, J10, J11, J12, J13.
  unfold rstep. destruct rt as [|c rest]; [constructor; cbn; assumption|].
  destruct rp; cbn in *.
  - destruct hint.
    + constructor; cbn; auto; try congruence; try discriminate.
      * intros _. destruct rd; discriminate.
      * destruct rd as [|x rd]; cbn; [|exact J13]. specialize (J11 eq_refl eq_refl). discriminate.
    + constructor; cbn; auto; try congruence; destruct rd as [|x rd]; auto.
  - destruct lock; [constructor; cbn; auto; try congruence; destruct rd; auto|].
    subst hint. constructor; cbn; auto; try congruence; try discriminate.
    + destruct (wholds wp); [discriminate|reflexivity].
    + destruct (wholds wp); [discriminate|reflexivity].
  - subst hint. assert (W : wholds wp = false) by (destruct (wholds wp); [discriminate|reflexivity]).
    destruct c; [destruct err|].
    + constructor; cbn; auto; try congruence; try discriminate; try lia. destruct rd as [|[] rd]; auto.
    + constructor; cbn; auto; try congruence; try discriminate; try lia.
    + constructor; cbn; auto; try congruence; try discriminate; try lia; destruct rd as [|[] rd]; auto.
  - subst hint. assert (W : wholds wp = false) by (destruct (wholds wp); [discriminate|reflexivity]). specialize (J7 eq_refl). subst err.
    assert (WN : match wp with WWriting _ => False | _ => True end).
    { destruct wp as [| |[]|[]|]; cbn in *; auto; try discriminate. }
    constructor; cbn; auto; try congruence; try discriminate.
    + destruct wp; auto. contradiction.
    + apply all_ok_snoc. exact J9.
    + rewrite filter_snoc. cbn. lia.
    + assert (E : Exists (fun m => is_hint m = true) (at_ ++ [(Hint, ok)])) by (apply Exists_app; right; now constructor).
      destruct rd as [|[] rd]; auto. destruct c; auto.
  - subst hint. assert (W : wholds wp = false) by (destruct (wholds wp); [discriminate|reflexivity]).
    constructor; cbn; auto; try congruence; try discriminate.
    + destruct wp as [| |[]|[]|]; auto.
  - subst hint. assert (W : wholds wp = false) by (destruct (wholds wp); [discriminate|reflexivity]).
    constructor; cbn; auto; try congruence; try discriminate; try (intros _; destruct rd; discriminate).
    + now rewrite W.
    + destruct rd as [|x rd]; cbn; [|exact J13]. destruct c; auto.
Qed.

Lemma winv_wstep ok s : winv s -> winv (wstep ok s).
Proof.
  intros [J1 J2 J3 J4 J5 J6 J7 J8 J9 J10 J11 J12 J13]. destruct s as [hint lock err rp rt rd wp wt wr at_]. cbn in J1, J2, J3, J4, J5, J6, J7, J8, J9, J10, J11, J12, J13.
  assert (Same : winv (Ws hint lock err rp rt rd wp wt wr at_)) by (constructor; cbn; assumption).
  unfold wstep. destruct wp as [| |l|l|]; [..|].
  - destruct wt as [|b rest]; [exact Same|]. destruct hint; constructor; cbn; auto; try congruence.
  - destruct wt as [|b rest]; [exact Same|]. destruct lock; [exact Same|].
    cbn in J1, J2. assert (R : rholds rp = false) by (destruct (rholds rp); [discriminate|reflexivity]).
    constructor; cbn; auto; try congruence; try (rewrite R; reflexivity).
  - destruct wt as [|b rest]; [exact Same|]. destruct err.
    + destruct l; constructor; cbn; auto; try congruence.
    + destruct l; constructor; cbn; auto; try congruence.
  - destruct wt as [|b rest]; [exact Same|]. subst err. cbn [orb].
    assert (RN : rp <> RWriting).
    { intros ->. destruct l; cbn in *; congruence. }
    assert (T : match rd with
           | [] => match rp, rt with
                   | (RStore | RUnlock), Rd :: _ => negb ok = true \/ Exists (fun m => is_hint m = true) (at_ ++ [(Bin b, ok)])
                   | _, _ => True end
           | Rd :: _ => negb ok = true \/ Exists (fun m => is_hint m = true) (at_ ++ [(Bin b, ok)])
           | Cl :: _ => True end).
    { assert (G : false = true \/ Exists (fun m => is_hint m = true) at_ -> negb ok = true \/ Exists (fun m => is_hint m = true) (at_ ++ [(Bin b, ok)])).
      { intros [X|X]; [discriminate|right; now apply exists_snoc]. }
      destruct rd as [|[] rd]; auto. destruct rp; auto; destruct rt as [|[] rt]; auto. }
    pose proof (all_ok_snoc at_ (Bin b) ok J9) as A.
    assert (F : length (filter is_hint (at_ ++ [(Bin b, ok)])) = length (filter is_hint at_)) by (rewrite filter_snoc; cbn; lia).
    destruct l; constructor; cbn; rewrite ?F; auto; try congruence.
  - cbn in J1, J2. assert (R : rholds rp = false) by (destruct (rholds rp); [discriminate|reflexivity]).
    constructor; cbn; auto; try congruence.
    rewrite R. reflexivity.
Qed.

Lemma winv_run reads writes l : winv (wrun l (ws_init reads writes)).
Proof.
  induction l as [|x l IH] using rev_ind.
  - constructor; cbn; auto; try discriminate; try congruence.
  - unfold wrun in *. rewrite fold_left_app. cbn [fold_left]. destruct x; cbn [wturn]; [now apply winv_rstep|now apply winv_wstep].
Qed.

(* For all interleavings and results: the goroutines never write messages at the same time, nor one writes while the other uses
   the error variable. *)
Theorem one_message_at_a_time reads writes l :
  let s := wrun l (ws_init reads writes) in
  (r_pc s = RWriting \/ r_pc s = RHave) -> (exists b, w_pc s = WWriting b \/ w_pc s = WHave b) -> False.
Proof.
  cbn zeta. destruct (winv_run reads writes l) as [J1 J2 J3 J4 _ _ _ _ _ _ _ _ _].
  set (s := wrun l (ws_init reads writes)) in *. intros R (b & W).
  destruct R as [R|R], W as [W|W], b; rewrite R in *; rewrite W in *; cbn in *; congruence.
Qed.
Print Assumptions one_message_at_a_time.

(* At most one hint is sent, nothing is sent after a failure, and when the first read goes on the client has been told (unless a
   write has failed). *)
Theorem hint_sent_once reads writes l :
  let s := wrun l (ws_init reads writes) in
  (length (filter is_hint (w_attempts s)) <= 1)%nat /\
  Forall (fun x => snd x = true) (removelast (w_attempts s)) /\
  (hd_error (r_done s) = Some Rd -> w_err s = true \/ Exists (fun m => is_hint m = true) (w_attempts s)).
Proof.
  cbn zeta. destruct (winv_run reads writes l) as [_ _ _ _ _ _ _ _ J9 J10 _ _ J13].
  set (s := wrun l (ws_init reads writes)) in *. split; [|split].
  - destruct (w_hint s), (r_pc s); lia.
  - destruct (w_err s).
    + destruct J9 as (l' & m & -> & F). rewrite removelast_last. exact F.
    + destruct (w_attempts s) as [|x t] using rev_ind; [constructor|]. rewrite removelast_last. apply Forall_app in J9. apply J9.
  - destruct (r_done s) as [|[] t]; cbn; try discriminate. auto.
Qed.
Print Assumptions hint_sent_once.

Definition wrote (writes : list bytes) (s : ws) : Prop := exists d1 d2,
  writes = d1 ++ d2 ++ w_todo s /\ accepted (w_attempts s) = d1 /\
  w_results s = map (fun b => Some (length b)) d1 ++ map (fun _ => None) d2 /\ (d2 <> [] -> w_err s = true) /\
  (writes_of (w_attempts s) = d1 \/ exists b t, d2 = b :: t /\ writes_of (w_attempts s) = d1 ++ [b]).

Lemma accepted_snoc l x : accepted (l ++ [x]) = accepted l ++ accepted [x].
Proof. unfold accepted. now rewrite flat_map_app. Qed.
Lemma writes_snoc l x : writes_of (l ++ [x]) = writes_of l ++ writes_of [x].
Proof. unfold writes_of. now rewrite flat_map_app. Qed.

Lemma wrote_step writes s x : winv s -> wrote writes s -> wrote writes (wturn s x).
Proof.
  intros J (d1 & d2 & E & A & R & N & W). destruct J as [_ J2 _ _ _ _ J7 J8 _ _ _ _ _].
  destruct s as [hint lock err rp rt rd wp wt wr at_]. cbn [w_hint w_lock w_err r_pc r_todo r_done w_pc w_todo w_results w_attempts] in *.
  assert (Same : forall hint lock err' rp rt rd wp, (err = true -> err' = true) -> wrote writes (Ws hint lock err' rp rt rd wp wt wr at_)).
  { intros. exists d1, d2. cbn [w_hint w_lock w_err r_pc r_todo r_done w_pc w_todo w_results w_attempts]. repeat split; auto. }
  destruct x as [ok|ok]; cbn [wturn].
  - unfold rstep. destruct rt as [|c rest]; [apply Same; auto|].
    destruct rp; try (apply Same; auto; fail).
    + destruct hint; apply Same; auto.
    + destruct lock; apply Same; auto.
    + destruct c; [destruct err|]; apply Same; auto.
    + specialize (J7 eq_refl). subst err. exists d1, d2. cbn [w_hint w_lock w_err r_pc r_todo r_done w_pc w_todo w_results w_attempts]. rewrite accepted_snoc, writes_snoc. cbn [accepted writes_of flat_map fst app]. rewrite !app_nil_r.
      repeat split; auto. intros H. now specialize (N H).
  - unfold wstep. destruct wp as [| |l|l|]; [..|apply Same; auto].
    + destruct wt as [|b rest]; [apply Same; auto|]. apply Same; auto.
    + destruct wt as [|b rest]; [apply Same; auto|]. destruct lock; apply Same; auto.
    + destruct wt as [|b rest]; [apply Same; auto|]. destruct err; [|apply Same; auto].
      exists d1, (d2 ++ [b]). cbn [w_hint w_lock w_err r_pc r_todo r_done w_pc w_todo w_results w_attempts]. rewrite map_app, R. repeat split; auto.
      * rewrite E. now rewrite <- (app_assoc d2).
      * now rewrite <- app_assoc.
      * destruct W as [W|(b0 & t & -> & W)]; [now left|right]. exists b0, (t ++ [b]). auto.
    + destruct wt as [|b rest]; [apply Same; auto|]. subst err. assert (d2 = []) as -> by (destruct d2; [reflexivity|specialize (N ltac:(discriminate)); discriminate]).
      cbn [app map] in E, R. rewrite app_nil_r in R. assert (W' : writes_of at_ = d1) by (destruct W as [W|(b0 & t & X & _)]; [exact W|discriminate]).
      destruct ok.
      * exists (d1 ++ [b]), []. cbn [w_hint w_lock w_err r_pc r_todo r_done w_pc w_todo w_results w_attempts]. rewrite accepted_snoc, writes_snoc. cbn [accepted writes_of flat_map fst app]. rewrite A, W', R, map_app, app_nil_r, <- app_assoc.
        repeat split; auto; try congruence.
      * exists d1, [b]. cbn [w_hint w_lock w_err r_pc r_todo r_done w_pc w_todo w_results w_attempts]. rewrite accepted_snoc, writes_snoc. cbn [accepted writes_of flat_map fst app]. rewrite A, W', R, app_nil_r.
        repeat split; auto. right. exists b, []. auto.
Qed.

(* Write calls' data is sent in order: those calls which have succeeded are the first ones, each has returned its length, the others
   have failed; and of these at most the first was tried. *)
Theorem writes_sent_in_order reads writes l :
  let s := wrun l (ws_init reads writes) in
  exists sent failed, writes = sent ++ failed ++ w_todo s /\
    accepted (w_attempts s) = sent /\ w_results s = map (fun b => Some (length b)) sent ++ map (fun _ => None) failed /\
    (writes_of (w_attempts s) = sent \/ exists b t, failed = b :: t /\ writes_of (w_attempts s) = sent ++ [b]) /\
    (failed <> [] -> w_err s = true).
Proof.
  cbn zeta. assert (G : wrote writes (wrun l (ws_init reads writes))).
  { induction l as [|x l IH] using rev_ind.
    - exists [], []. cbn. repeat split; auto; congruence.
    - pose proof (winv_run reads writes l) as J. unfold wrun in *. rewrite fold_left_app. cbn [fold_left]. now apply wrote_step. }
  destruct G as (d1 & d2 & A & B & C & D & E). exists d1, d2. auto 8.
Qed.
Print Assumptions writes_sent_in_order.

(* The goroutines never block each other forever: until both have done all calls, at least one of them can go on, and each step
   brings the end nearer. *)
Theorem websocket_calls_end reads writes l :
  let s := wrun l (ws_init reads writes) in
  (rleft s + wleft s = 0 /\ r_todo s = [] /\ w_todo s = [] \/
   (forall ok, rleft (rstep ok s) < rleft s /\ wleft (rstep ok s) = wleft s) \/
   (forall ok, wleft (wstep ok s) < wleft s /\ rleft (wstep ok s) = rleft s))%nat /\
  (forall x, wturn s x = s \/ rleft (wturn s x) + wleft (wturn s x) < rleft s + wleft s)%nat.
Proof.
  cbn zeta. destruct (winv_run reads writes l) as [J1 J2 J3 _ J5 J6 _ _ _ _ _ _ _].
  destruct (wrun l (ws_init reads writes)) as [hint lock err rp rt rd wp wt wr at_]. cbn in J1, J2, J3, J5, J6.
  set (s := Ws hint lock err rp rt rd wp wt wr at_).
  assert (RS : (rt = [] \/ rp = RWant /\ lock = true) /\ (forall ok, rstep ok s = s) \/
      (forall ok, rleft (rstep ok s) < rleft s /\ wleft (rstep ok s) = wleft s)%nat).
  { unfold rstep, s. destruct rt as [|c rest]; [left; auto|].
    destruct rp; [destruct hint|destruct lock; [left; auto|]|destruct c; [destruct err|]|..]; right; intros ok; unfold rleft, wleft;
      cbn [r_todo r_pc w_todo w_pc length]; (split; [|reflexivity]); destruct rest; cbn [length]; lia. }
  assert (WS : ((wt = [] /\ wp = WIdle) \/ wp = WWant /\ lock = true) /\ (forall ok, wstep ok s = s) \/
      (forall ok, wleft (wstep ok s) < wleft s /\ rleft (wstep ok s) = rleft s)%nat).
  { unfold wstep, s. destruct wp as [| |b|b|].
    - destruct wt as [|x wt]; [left; auto|]. right. intros ok. unfold wleft, rleft. cbn [r_todo r_pc w_todo w_pc length]. split; [|reflexivity]. destruct hint; lia.
    - destruct wt as [|x wt]; [congruence|]. destruct lock; [left; auto|]. right. intros ok. unfold wleft, rleft. cbn [r_todo r_pc w_todo w_pc length]. split; [|reflexivity]. lia.
    - destruct wt as [|x wt]; [congruence|]. right. intros ok. destruct err; [destruct b|]; unfold wleft, rleft, after; cbn [r_todo r_pc w_todo w_pc length]; (split; [|reflexivity]); lia.
    - destruct wt as [|x wt]; [congruence|]. right. intros ok. destruct b; unfold wleft, rleft, after; cbn [r_todo r_pc w_todo w_pc length]; (split; [|reflexivity]); lia.
    - right. intros ok. unfold wleft, rleft. cbn [r_todo r_pc w_todo w_pc length]. split; [|reflexivity]. lia. }
  split.
  - destruct RS as [[RB _]|RS]; [|auto]. destruct WS as [[WB _]|WS]; [|auto]. left.
    destruct WB as [[-> ->] | [-> ->]], RB as [-> | [-> E]].
    + subst s. repeat split.
    + rewrite E in J1. discriminate.
    + destruct rp; try (destruct (J5 ltac:(discriminate) eq_refl)).
    + discriminate.
  - intros [ok|ok]; cbn [wturn].
    + destruct RS as [[_ ->]|RS]; [now left|]. destruct (RS ok). right. lia.
    + destruct WS as [[_ ->]|WS]; [now left|]. destruct (WS ok). right. lia.
Qed.
Print Assumptions websocket_calls_end.

(* The reader sends the hint between the writer's two messages; the writer has seen that there is no hint yet, and waits *)
Definition ex_turns : list turn :=
  [Writer true; Writer true; Writer true; Writer true; Writer true; Reader true; Reader true; Writer true; Reader true; Writer true;
   Reader true; Reader true; Reader true; Writer true; Writer true; Writer true; Reader true].
Example ex_ws : let s := wrun ex_turns (ws_init [Rd; Cl] [[1]; [2; 3]]) in
  (w_attempts s, w_results s, r_done s, w_todo s) =
  ([(Bin [1], true); (Hint, true); (Bin [2; 3], true)], [Some 1%nat; Some 2%nat], [Rd; Cl], []).
Proof. reflexivity. Qed.
Example ex_ws_fail : let s := wrun [Writer true; Writer true; Reader true; Writer true; Writer false; Writer true; Reader true; Reader true; Reader true; Reader true; Writer true; Writer true]
    (ws_init [Rd] [[1]; [2; 3]]) in
  (w_attempts s, w_results s, r_done s, w_err s) = ([(Bin [1], false)], [None; None], [Rd], true).
Proof. reflexivity. Qed.

(** Reading *)

Definition left_of (s : input) : bytes := match in_frame s with Some f => f | None => [] end ++ concat (in_frames s).

Lemma read_frames_spec n o frames : forall i, (0 < n)%nat -> let '(s, r) := read_frames o i n frames in
  match r with
  | Data d => (1 <= length d <= n)%nat /\ concat frames = d ++ left_of s
  | NoMore => concat frames = [] /\ left_of s = []
  end.
Proof.
  induction frames as [|f frames IH]; intros i N; cbn [read_frames]; [split; reflexivity|].
  unfold frame_read. destruct f as [|x f].
  - specialize (IH (S i) N). destruct (read_frames o (S i) n frames) as [s [d|]]; exact IH.
  - destruct (Nat.min (S (fst (o i))) n) as [|m] eqn:M; [lia|]. cbn [firstn]. unfold left_of. cbn [in_frame in_frames].
    split.
    + cbn [length]. rewrite firstn_length. lia.
    + cbn [concat skipn]. destruct (snd (o i)); cbn [andb].
      * destruct (Nat.leb_spec (length (x :: f)) (S m)) as [L|L].
        -- cbn [length] in L. rewrite firstn_all2 by lia. reflexivity.
        -- cbn [app]. rewrite app_assoc, firstn_skipn. reflexivity.
      * cbn [app]. rewrite app_assoc, firstn_skipn. reflexivity.
Qed.

(* For all frames, ways in which the websocket library reads them, and buffer sizes: what is read is the concatenation of the
   frames, from the beginning. *)
Theorem reads_are_frames os frames sizes : exists rest, concat frames = data_of (ws_reads os 0 sizes (Input None frames)) ++ rest.
Proof.
  assert (G : forall sizes j s, exists rest, left_of s = data_of (ws_reads os j sizes s) ++ rest).
  { clear. induction sizes as [|n sizes IH]; intros j s; cbn [ws_reads]; [now exists (left_of s)|].
    destruct (ws_read (os j) n s) as [s' r] eqn:E.
    assert (H : left_of s = data_of [r] ++ left_of s').
    { unfold ws_read in E. destruct n; [injection E as <- <-; reflexivity|].
      remember (match in_frame s with Some f => f :: in_frames s | None => in_frames s end) as fs eqn:Efs.
      assert (C : concat fs = left_of s) by (subst fs; unfold left_of; destruct (in_frame s); reflexivity).
      pose proof (read_frames_spec (S n) (os j) fs 0 ltac:(lia)) as P.
      rewrite E in P. rewrite C in P. destruct r as [d|]; cbn; rewrite ?app_nil_r; [apply P|]. destruct P. congruence. }
    destruct (IH (S j) s') as [rest R]. exists rest. rewrite H, R. unfold data_of. cbn [flat_map]. rewrite app_nil_r, app_assoc. reflexivity. }
  destruct (G sizes 0%nat (Input None frames)) as [rest R]. exists rest. exact R.
Qed.
Print Assumptions reads_are_frames.

(* A read with a nonempty buffer gets something, at most the buffer's size, unless there is nothing more. *)
Theorem reads_get_something o n s :
  (0 < n)%nat -> let '(s', r) := ws_read o n s in
  match r with
  | Data d => (1 <= length d <= n)%nat
  | NoMore => forall k, (0 < k)%nat -> snd (ws_read o k s) = NoMore
  end.
Proof.
  intros N. destruct (ws_read o n s) as [s' r] eqn:E. unfold ws_read in E. destruct n as [|n]; [lia|].
  pose proof (read_frames_spec (S n) o (match in_frame s with Some f => f :: in_frames s | None => in_frames s end) 0 N) as P.
  rewrite E in P. destruct r as [d|]; [apply P|]. destruct P as [P _]. intros [|k] K; [lia|]. unfold ws_read.
  pose proof (read_frames_spec (S k) o (match in_frame s with Some f => f :: in_frames s | None => in_frames s end) 0 K) as Q.
  destruct (read_frames o 0 (S k) _) as [s2 [d|]]; [|reflexivity]. destruct Q as [Q1 Q2]. rewrite P in Q2.
  destruct d; [cbn in Q1; lia|discriminate].
Qed.
Print Assumptions reads_get_something.

Example ex_reads : ws_reads (fun j i => (1%nat, Nat.even j)) 0 [10; 3; 1; 5; 5]%nat (Input None [[1; 2; 3]; []; [4; 5]; [6]]) =
  [Data [1; 2]; Data [3]; Data [4]; Data [5]; Data [6]].
Proof. reflexivity. Qed.
