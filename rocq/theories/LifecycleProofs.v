(* LifecycleProofs.v *)
From Verif Require Import BaseLemmas ListLemmas LifecycleSpec.

Definition stopped_ok (s : status) : Prop := suspended s \/ halted s \/ ended s.

Lemma status_of_image_ok m : stopped_ok (status_of_image m).
Proof.
  unfold stopped_ok, suspended, halted, ended, status_of_image, trapStatus.
  destruct (m_final m), (m_trap m =? tExit); cbn; auto; [destruct (m_entry m); cbn; auto|].
  destruct (m_trap m =? tSuspended); cbn; auto. destruct (_ || _); cbn; auto. destruct (m_trap m =? tKilled); cbn; auto.
Qed.
Lemma drive_ok t r m b k : stopped_ok (fst (drive t r m b k)).
Proof.
  unfold stopped_ok, suspended, halted, ended, drive, trapStatus.
  destruct (sv_err r); cbn; auto.
  destruct m, (sv_trap r =? tKilled), (sv_trap r =? tExit), t, b, (Terminated (sv_code r)); cbn; auto;
    destruct (sv_trap r =? tSuspended); cbn; auto; destruct (_ || _); cbn; auto.
Qed.
(* only a stored image is left suspended or halted *)
Lemma drive_stored t r m b k : t = false -> suspended (fst (drive t r m b k)) \/ halted (fst (drive t r m b k)) ->
  sv_err r = false /\ m <> MutErr /\ b = true.
Proof.
  intros ->. unfold suspended, halted, drive, trapStatus. destruct (sv_err r); cbn; [intros [?|?]; discriminate|].
  destruct m, (Z.eqb_spec (sv_trap r) tKilled) as [K|K], b; cbn;
    try (intros [?|?]; discriminate); try (intros _; repeat split; congruence);
    rewrite K; cbn; intros [?|?]; discriminate.
Qed.

(* ---- threads ---- *)

Lemma set_nth_len {A} n (x : A) l : (n < length l)%nat -> length (set_nth n x l) = length l.
Proof. intros H. unfold set_nth. rewrite app_length, firstn_length. cbn [length]. rewrite skipn_length. lia. Qed.
Lemma split_nth {A} n (l : list A) x : nth_error l n = Some x -> l = firstn n l ++ x :: skipn (S n) l.
Proof.
  revert l. induction n as [|n IH]; intros [|y l] H; cbn in *; try discriminate.
  - now inversion H.
  - f_equal. now apply IH.
Qed.
Lemma in_set {A} n (x y : A) l : In y (set_nth n x l) -> y = x \/ In y l.
Proof.
  unfold set_nth. intros H. apply in_app_or in H as [H|[H|H]]; auto.
  - right. rewrite <- (firstn_skipn n l). apply in_or_app. now left.
  - right. rewrite <- (firstn_skipn (S n) l). apply in_or_app. now right.
Qed.
Lemma filter_set n g g0 l : nth_error l n = Some g0 ->
  filter drives l = (filter drives (firstn n l) ++ (if drives g0 then [g0] else []) ++ filter drives (skipn (S n) l)) /\
  filter drives (set_nth n g l) = (filter drives (firstn n l) ++ (if drives g then [g] else []) ++ filter drives (skipn (S n) l)).
Proof.
  intros H. split.
  - rewrite (split_nth n l g0 H) at 1. rewrite filter_app. cbn [filter]. destruct (drives g0); reflexivity.
  - unfold set_nth. rewrite filter_app. cbn [filter]. destruct (drives g); reflexivity.
Qed.
Lemma drivers_same n g g0 l : nth_error l n = Some g0 -> drives g0 = false -> drives g = false -> filter drives (set_nth n g l) = filter drives l.
Proof. intros H A B. destruct (filter_set n g g0 l H) as [X Y]. rewrite X, Y, A, B. reflexivity. Qed.
Lemma drivers_start n g g0 l : nth_error l n = Some g0 -> drives g0 = false -> filter drives l = [] -> drives g = true -> filter drives (set_nth n g l) = [g].
Proof.
  intros H A E B. destruct (filter_set n g g0 l H) as [X Y]. rewrite Y, B. rewrite A, E in X. cbn [app] in X.
  symmetry in X. apply app_eq_nil in X as [-> ->]. reflexivity.
Qed.
Lemma drivers_replace n g g0 l : nth_error l n = Some g0 -> drives g0 = true -> filter drives l = [g0] -> filter drives (set_nth n g l) = if drives g then [g] else [].
Proof.
  intros H A E. destruct (filter_set n g g0 l H) as [X Y]. rewrite Y. rewrite A, E in X.
  revert X. generalize (filter drives (firstn n l)) (filter drives (skipn (S n) l)). intros u v X.
  destruct u as [|a u].
  - inversion X; subst v. now rewrite app_nil_r.
  - exfalso. apply (f_equal (@length stage)) in X. cbn in X. rewrite app_length in X. cbn in X. lia.
Qed.
Lemma driver_in n g l k : nth_error l n = Some g -> drives g = true -> filter drives l = k -> In g k.
Proof. intros H D <-. apply filter_In. split; auto. eapply nth_error_In; eauto. Qed.

(* ---- the invariant ---- *)

Definition waiting_ok (i : inst) (h : list hev) (g : stage) : Prop :=
  match g with
  | SWaiting n c => (n <= length h)%nat /\ (c <= ch i)%nat /\ (c = ch i \/ resumed_since n h)
  | SWaited n gone => (n <= length h)%nat /\ (gone = true \/ resumed_since n h \/ life_of h <> LRunning /\ life_of h <> LResuming /\ life_of h <> LNew)
  | _ => True
  end.

Definition life_inv (s : st) : Prop :=
  let i := obj s in
  match life_of (hist s) with
  | LNew => drivers s = [SStart] /\ ex i = false /\ st_state (stt i) = Nonexistent /\ img i <> None /\ named i = false /\ proc i = svc i /\ closed i (ch i) = false
  | LRunning => (exists g, drivers s = [g] /\ g <> SStart) /\ ex i = true /\ st_state (stt i) = Running /\ img i <> None /\ named i = false /\ proc i = true /\ svc i = true /\ closed i (ch i) = false
  | LStopped x => drivers s = [] /\ ex i = true /\ stt i = x /\ stopped_ok x /\ img i <> None /\ closed i (ch i) = true /\
                  (suspended x \/ halted x -> named i = true)
  | LResuming => drivers s = [SStart] /\ ex i = true /\ st_state (stt i) = Running /\ img i <> None /\ proc i = true /\ svc i = true /\ closed i (ch i) = false
  | LGone => drivers s = [] /\ ex i = false /\ stopped_ok (stt i) /\ img i = None /\ named i = false
  | LFailed => drivers s = [] /\ (ex i = false /\ st_state (stt i) = Nonexistent \/ ex i = true /\ st_state (stt i) = Running /\ img i = None)
  end.

Record inv (s : st) : Prop := {
  i_life : life_inv s;
  i_shut : forall c, In c (shut (obj s)) -> (c <= ch (obj s))%nat;
  i_wait : forall g, In g (threads s) -> waiting_ok (obj s) (hist s) g;
  i_right : all_right (hist s) }.

Lemma resumed_cons n h e : (n <= length h)%nat -> resumed_since n h -> resumed_since n (e :: h).
Proof.
  intros L [f H]. exists f. cbn [length]. replace (S (length h) - n)%nat with (S (length h - n)) by lia. cbn [firstn]. now right.
Qed.
Lemma resumed_new n h f : (n <= length h)%nat -> resumed_since n (HResume f :: h).
Proof.
  intros L. exists f. cbn [length]. replace (S (length h) - n)%nat with (S (length h - n)) by lia. cbn [firstn]. now left.
Qed.

Lemma launch_inv t p m : inv (launch t p m).
Proof.
  constructor; cbn.
  - unfold life_inv. cbn. repeat split; congruence.
  - intros c [].
  - intros g [<-|[]]. exact I.
  - exact I.
Qed.

Lemma not_closed_S i : (forall c, In c (shut i) -> (c <= ch i)%nat) -> forall k, (ch i < k)%nat -> existsb (Nat.eqb k) (shut i) = false.
Proof.
  intros H k K. destruct (existsb (Nat.eqb k) (shut i)) eqn:E; auto. apply existsb_exists in E as (c & X & Y). apply Nat.eqb_eq in Y. subst. apply H in X. lia.
Qed.

Definition okinv (r : res st) : Prop := forall s', r = Ok s' -> inv s'.

Definition settled (h : list hev) : Prop := life_of h <> LRunning /\ life_of h <> LResuming /\ life_of h <> LNew.

Lemma wait_mono i i' h e g : waiting_ok i h g -> ch i' = ch i -> (settled h -> settled (e :: h)) -> waiting_ok i' (e :: h) g.
Proof.
  intros W C S. destruct g; cbn [waiting_ok] in *; auto.
  - destruct W as (A & B & D). cbn [length]. rewrite C. repeat split; auto; try lia. destruct D; auto. right. now apply resumed_cons.
  - destruct W as (A & D). cbn [length]. split; [lia|]. destruct D as [D|[D|D]]; auto; [right; left; now apply resumed_cons|]. right. right. exact (S D).
Qed.
Lemma wait_resume i i' h f g : waiting_ok i h g -> ch i' = S (ch i) -> waiting_ok i' (HResume f :: h) g.
Proof.
  intros W C. destruct g; cbn [waiting_ok] in *; auto.
  - destruct W as (A & B & D). cbn [length]. rewrite C. repeat split; auto; try lia. right. now apply resumed_new.
  - destruct W as (A & D). cbn [length]. split; [lia|]. right. left. now apply resumed_new.
Qed.
Lemma wait_obj i i' h g : waiting_ok i h g -> ch i' = ch i -> waiting_ok i' h g.
Proof. intros W C. destruct g; cbn [waiting_ok] in *; auto. now rewrite C. Qed.

(* a step of a request that neither starts nor drives the instance *)
Lemma goto_inv s t g0 g : inv s -> nth_error (threads s) t = Some g0 -> drives g0 = false -> drives g = false ->
  waiting_ok (obj s) (hist s) g -> okinv (goto s t g).
Proof.
  intros [L Sh W R] T D0 D Wg s' H. inversion H; subst s'; clear H. constructor; cbn [obj hist threads]; auto.
  - unfold life_inv, drivers in *. cbn [obj hist threads]. rewrite (drivers_same t g g0); auto.
  - intros x X. apply in_set in X as [->|X]; auto.
Qed.
(* ... which changes whether the instance is transient *)
Lemma put_tr s t g0 b : inv s -> nth_error (threads s) t = Some g0 -> drives g0 = false -> okinv (put s (with_tr (obj s) b) t SDone []).
Proof.
  intros [L Sh W R] T D0 s' H. inversion H; subst s'; clear H. constructor; cbn [obj hist threads app]; auto.
  - unfold life_inv, drivers in *. cbn [obj hist threads]. rewrite (drivers_same t SDone g0); auto.
  - intros x X. apply in_set in X as [->|X]; [exact I|]. apply W in X. revert X. intros X. eapply wait_obj; eauto.
Qed.
(* ... which only adds an event that doesn't change its life *)
Lemma put_event s t g0 g e : inv s -> nth_error (threads s) t = Some g0 -> drives g0 = false -> drives g = false ->
  waiting_ok (obj s) (hist s) g -> life_of (e :: hist s) = life_of (hist s) -> right (hist s) e -> okinv (put s (obj s) t g [e]).
Proof.
  intros [L Sh W R] T D0 D Wg E Re s' H. inversion H; subst s'; clear H.
  constructor; cbn [obj hist threads app]; auto.
  - unfold life_inv, drivers in *. cbn [obj hist threads app]. rewrite E. rewrite (drivers_same t g g0); auto.
  - intros x X. assert (Y: waiting_ok (obj s) (hist s) x) by (apply in_set in X as [->|X]; auto).
    eapply wait_mono; eauto. unfold settled. now rewrite E.
  - split; auto.
Qed.

Lemma driving s t g : inv s -> nth_error (threads s) t = Some g -> drives g = true ->
  drivers s = [g] /\ (life_of (hist s) = LNew \/ life_of (hist s) = LRunning \/ life_of (hist s) = LResuming).
Proof.
  intros [L _ _ _] T D. unfold life_inv in L. pose proof (driver_in t g (threads s) (drivers s) T D eq_refl) as X.
  destruct (life_of (hist s)); repeat match goal with H : _ /\ _ |- _ => destruct H end;
    try (match goal with H : drivers s = [] |- _ => rewrite H in X; contradiction end).
  - rewrite H in X. destruct X as [<-|[]]. auto.
  - destruct H as (g' & H & _). rewrite H in X. destruct X as [<-|[]]. auto.
  - rewrite H in X. destruct X as [<-|[]]. auto.
Qed.

Lemma stop_ok i i' : stop i = Ok i' ->
  closed i (ch i) = false /\ proc i = true /\ svc i = true /\
  i' = Inst (ex i) (tr i) (stt i) (img i) (named i) (proc i) false (ch i) (ch i :: shut i).
Proof.
  unfold stop, close_stopped. destruct (closed i (ch i)); [discriminate|]. cbn [bind ex tr stt img named proc svc ch shut].
  destruct (proc i), (svc i); cbn [negb orb]; try discriminate. intros H. inversion H. auto.
Qed.

Lemma run_inv s t c : inv s -> okinv (run s t c).
Proof.
  intros V. unfold run. destruct (nth_error (threads s) t) as [g|] eqn:T; [|intros s' H; discriminate].
  pose proof (i_life s V) as L. pose proof (i_shut s V) as Sh. pose proof (i_wait s V) as W. pose proof (i_right s V) as R.
  assert (Wg: waiting_ok (obj s) (hist s) g) by (apply W; eapply nth_error_In; eauto).
  assert (G: forall g', drives g = false -> drives g' = false -> waiting_ok (obj s) (hist s) g' -> okinv (goto s t g')) by (intros; eapply goto_inv; eauto).
  assert (N: forall s' : st, Panic = Ok s' -> inv s') by discriminate.
  assert (N': forall s' : st, Err = Ok s' -> inv s') by discriminate.
  destruct g.
  - (* SKill *) apply G; auto; exact I.
  - (* SSuspend *) destruct (is_running (obj s)); [eapply put_tr; eauto|].
    change (okinv (goto s t SDone)). apply G; auto; exact I.
  - (* SInfo *) destruct (ex (obj s)); cbn [negb]; [destruct (img (obj s)); auto|]; try (intros s' H; discriminate); apply G; auto; exact I.
  - (* SPersist *) destruct (ex (obj s)); [eapply put_tr; eauto|]. change (okinv (goto s t SDone)). apply G; auto; exact I.
  - (* SDebug *)
    destruct c; try (apply G; auto; exact I); try (destruct (img (obj s)); [apply G; auto; exact I|intros s' H; discriminate]).
    destruct (is_running (obj s)); [apply G; auto; exact I|]. destruct (img (obj s)); [apply G; auto; exact I|intros s' H; discriminate].
  - (* SDelete *)
    destruct (negb (ex (obj s)) || is_running (obj s)) eqn:C; [apply G; auto; exact I|].
    apply orb_false_iff in C as [C1 C2]. apply negb_false_iff in C1. unfold annihilate.
    destruct (img (obj s)) as [m|] eqn:Im; cbn [bind]; [|intros s' H; discriminate].
    intros s' H. inversion H; subst s'; clear H.
    assert (St: exists x, life_of (hist s) = LStopped x /\ stt (obj s) = x /\ stopped_ok x /\ drivers s = []).
    { unfold life_inv in L. unfold is_running in C2. destruct (life_of (hist s)); repeat match goal with H : _ /\ _ |- _ => destruct H end; try congruence.
      - rewrite H1 in C2. discriminate.
      - eauto 8.
      - rewrite H1 in C2. discriminate.
      - destruct H0 as [[? ?]|(? & X & _)]; [congruence|]. rewrite X in C2. discriminate. }
    destruct St as (x & Lx & Ex & Ok & Dr). constructor; cbn [obj hist threads app ch shut]; auto.
    + unfold life_inv, drivers in *. cbn [obj hist threads app life_of ex stt img named]. rewrite (drivers_same t SDone SDelete); auto. rewrite Ex. auto 6.
    + intros y Y. apply in_set in Y as [->|Y]; [exact I|]. eapply wait_mono; [apply W; exact Y|reflexivity|]. unfold settled. cbn. repeat split; discriminate.
    + split; auto. cbn [right]. eauto.
  - (* SResume *) destruct (resumable (obj s) f); apply G; auto; exact I.
  - (* SWait *)
    destruct (is_running (obj s)) eqn:C; [apply G; auto; cbn [waiting_ok]; auto|].
    eapply put_event; eauto; try exact I. cbn [right]. unfold life_inv in L. unfold is_running in C.
    destruct (life_of (hist s)); repeat match goal with H : _ /\ _ |- _ => destruct H end; auto.
    + rewrite H1 in C. discriminate.
    + rewrite H1 in C. discriminate.
  - (* SSnapshot *) destruct (is_running (obj s)); apply G; auto; exact I.
  - (* SStart *)
    destruct (driving s t SStart V T eq_refl) as [Dr Li].
    destruct (start (obj s) c) as [[i d]| |] eqn:E; cbn [bind]; try (intros s' H; discriminate).
    unfold start in E. unfold life_inv in L. destruct (proc (obj s)) eqn:P; cbn [negb] in E.
    + destruct (img (obj s)) as [m|] eqn:Im; [|discriminate].
      assert (Fail: forall b, (do i <- stop (with_named (obj s) b); Ok (with_img i None, Failed)) = Ok (i, d) ->
        okinv (match d with NoDrive => put s i t SDone [HReady (stt i)] | Drive => put s i t SServe [HRun] | Failed => put s i t SDone [HFail] end)).
      { intros b. destruct (stop (with_named (obj s) b)) as [i1| |] eqn:Es; cbn [bind]; try discriminate.
        apply stop_ok in Es as (_ & _ & _ & ->). cbn [ex tr stt img named proc svc ch shut with_named].
        intros H. inversion H; subst i d; clear H. intros s' H. inversion H; subst s'; clear H.
        constructor; cbn [obj hist threads app ch shut with_img with_named].
        - unfold life_inv, drivers in *. cbn [obj hist threads app life_of ex stt img named with_img]. rewrite (drivers_replace t SDone SStart); auto. cbn [drives].
          split; auto. destruct Li as [Li|[Li|Li]]; rewrite Li in L; repeat match goal with H : _ /\ _ |- _ => destruct H end; auto.
        - intros k [<-|K]; [lia|now apply Sh].
        - intros y Y. apply in_set in Y as [->|Y]; [exact I|]. eapply wait_mono; [apply W; exact Y|reflexivity|]. unfold settled. cbn. repeat split; discriminate.
        - split; auto. cbn [right]. destruct Li as [Li|[Li|Li]]; auto. exfalso.
          rewrite Li in L. destruct L as ((g & H & Hn) & _). rewrite Dr in H. inversion H. congruence. }
      destruct c; try (apply (Fail (named (obj s))); destruct (obj s); exact E); try (apply (Fail false); exact E).
      inversion E; subst i d; clear E Fail. intros s' H. inversion H; subst s'; clear H.
      assert (X: img (obj s) <> None /\ proc (obj s) = true /\ svc (obj s) = true /\ closed (obj s) (ch (obj s)) = false).
      { destruct Li as [Li|[Li|Li]]; rewrite Li in L; repeat match goal with H : _ /\ _ |- _ => destruct H end; repeat split; auto; congruence. }
      destruct X as (X1 & X2 & X3 & X4).
      constructor; cbn [obj hist threads app ch shut with_ex with_stt with_named]; auto.
      * unfold life_inv, drivers in *. cbn [obj hist threads app life_of ex stt st_state img named proc svc ch with_ex with_stt with_named]. rewrite (drivers_replace t SServe SStart); auto. cbn [drives].
        split; [eexists; split; [reflexivity|discriminate]|]. repeat split; auto.
      * intros y Y. apply in_set in Y as [->|Y]; [exact I|].
        assert (Z0: waiting_ok (obj s) (hist s) y) by now apply W.
        eapply (wait_mono (obj s)); eauto. intros (S1 & S2 & S3). destruct Li as [Li|[Li|Li]]; congruence.
      * split; auto. cbn [right]. destruct Li as [Li|[Li|Li]]; auto. exfalso.
        rewrite Li in L. destruct L as ((g & H & Hn) & _). rewrite Dr in H. inversion H. congruence.
    + assert (Li': life_of (hist s) = LNew).
      { destruct Li as [Li|[Li|Li]]; auto; rewrite Li in L; repeat match goal with H : _ /\ _ |- _ => destruct H end; congruence. }
      rewrite Li' in L. destruct L as (_ & L2 & L3 & L4 & L5 & L6 & L7).
      unfold store in E. destruct (img (obj s)) as [m|] eqn:Im; [|congruence]. rewrite L5 in E.
      assert (Fail: forall i d, Ok (obj s, Failed) = Ok (i, d) ->
        okinv (match d with NoDrive => put s i t SDone [HReady (stt i)] | Drive => put s i t SServe [HRun] | Failed => put s i t SDone [HFail] end)).
      { intros i0 d0 H. inversion H; subst i0 d0; clear H. intros s' H. inversion H; subst s'; clear H.
        constructor; cbn [obj hist threads app]; auto.
        - unfold life_inv, drivers in *. cbn [obj hist threads app life_of]. rewrite (drivers_replace t SDone SStart); auto.
        - intros y Y. apply in_set in Y as [->|Y]; [exact I|]. eapply wait_mono; [apply W; exact Y|reflexivity|]. unfold settled. cbn. repeat split; discriminate.
        - split; auto. cbn [right]. auto. }
      destruct c; try (apply Fail; exact E).
      cbn [with_named img] in E. rewrite Im in E. unfold close_stopped in E.
      match type of E with (do _ <- (if ?b then _ else _); _) = _ => replace b with false in E by (symmetry; exact L7) end.
      cbn [bind] in E. inversion E; subst i d; clear E. intros s' H. inversion H; subst s'; clear H.
      constructor; cbn [obj hist threads app ch shut with_ex with_stt with_named].
      * unfold life_inv, drivers in *. cbn [obj hist threads app life_of ex stt img named ch with_ex with_stt with_named]. rewrite (drivers_replace t SDone SStart); auto. cbn [drives].
        split; auto. split; auto. split; auto. split; [apply status_of_image_ok|]. split; [congruence|]. split; [unfold closed; cbn; now rewrite Nat.eqb_refl|auto].
      * intros k [<-|K]; [lia|now apply Sh].
      * intros y Y. apply in_set in Y as [->|Y]; [exact I|].
        assert (Z0: waiting_ok (obj s) (hist s) y) by now apply W.
        eapply (wait_mono (obj s)); eauto. unfold settled. cbn. repeat split; discriminate.
      * split; auto. cbn [right stt with_ex with_stt]. split; auto. apply status_of_image_ok.
  - (* SServe *)
    destruct (driving s t SServe V T eq_refl) as [Dr Li].
    destruct c; try (intros s' H; discriminate). intros s' H. inversion H; subst s'; clear H.
    constructor; cbn [obj hist threads]; auto.
    + unfold life_inv, drivers in *. cbn [obj hist threads]. rewrite (drivers_replace t (SFinish r) SServe); auto. cbn [drives].
      destruct Li as [Li|[Li|Li]]; rewrite Li in *; repeat match goal with H : _ /\ _ |- _ => destruct H end; try congruence.
      split; [|auto 8]. eexists. split; [reflexivity|discriminate].
    + intros y Y. apply in_set in Y as [->|Y]; [exact I|]. now apply W.
  - (* SFinish *)
    destruct (driving s t (SFinish r) V T eq_refl) as [Dr Li].
    destruct c; try (intros s' H; discriminate).
    destruct (finish (obj s) r m stored) as [[[i x] gone]| |] eqn:E; cbn [bind]; try (intros s' H; discriminate).
    unfold life_inv in L.
    assert (Li': life_of (hist s) = LRunning).
    { destruct Li as [Li|[Li|Li]]; auto; rewrite Li in L; destruct L as (L & _); rewrite Dr in L; discriminate. }
    rewrite Li' in L. destruct L as (_ & L2 & L3 & L4 & L5 & L6 & L7 & L8).
    unfold finish in E. destruct (img (obj s)) as [k|] eqn:Im; [|congruence]. rewrite L5 in E. cbn [negb orb] in E. rewrite andb_true_r in E.
    pose proof (drive_ok (tr (obj s)) r m stored k) as Ok1. pose proof (drive_stored (tr (obj s)) r m stored k) as Ok2.
    destruct (drive (tr (obj s)) r m stored k) as [y k'] eqn:Ed. cbn [fst] in Ok1, Ok2.
    unfold stop, close_stopped in E.
    match type of E with context [if ?b then Panic else Ok (Inst _ _ _ _ _ _ _ _ _)] => replace b with false in E by (symmetry; exact L8) end.
    cbn [bind proc svc with_stt with_img with_named] in E. rewrite L6, L7 in E. cbn [negb orb bind tr ex ch shut img named stt with_stt with_img with_named] in E.
    assert (F: forall i', ch i' = ch (obj s) -> shut i' = ch (obj s) :: shut (obj s) -> ex i' = true -> stt i' = y -> img i' <> None ->
       (suspended y \/ halted y -> named i' = true) -> inv (St i' (set_nth t SDone (threads s)) (HStop y :: hist s))).
    { intros i' E1 E2 E3 E4 E5 E6. constructor; cbn [obj hist threads].
      - unfold life_inv, drivers in *. cbn [obj hist threads life_of]. rewrite (drivers_replace t SDone (SFinish r)); auto. cbn [drives].
        split; auto. split; auto. split; auto. split; auto. split; auto. split; auto. unfold closed. rewrite E1, E2. cbn. now rewrite Nat.eqb_refl.
      - rewrite E1, E2. intros z [<-|K]; [lia|now apply Sh].
      - intros z Y. apply in_set in Y as [->|Y]; [exact I|].
        assert (Z0: waiting_ok (obj s) (hist s) z) by now apply W.
        eapply (wait_mono (obj s)); eauto. unfold settled. cbn. repeat split; discriminate.
      - split; auto. cbn [right]. split; auto. }
    destruct (tr (obj s)) eqn:Tr.
    + cbn [annihilate img bind] in E. inversion E; subst i x gone; clear E. intros s' H. inversion H; subst s'; clear H.
      cbn [app]. 
      assert (V1: inv (St (Inst true true y (Some k') true true false (ch (obj s)) (ch (obj s) :: shut (obj s))) (set_nth t SDone (threads s)) (HStop y :: hist s))).
      { apply F; cbn; auto; congruence. }
      destruct V1 as [V1 V2 V3 V4]. cbn [obj hist threads] in *. constructor; cbn [obj hist threads]; auto.
      * unfold life_inv in *. cbn [obj hist threads life_of ex stt img named] in *. destruct V1 as (Q1 & _). split; [exact Q1|]. auto.
      * intros z Y. apply V3 in Y. eapply wait_mono; [exact Y|reflexivity|]. unfold settled. cbn. repeat split; discriminate.
      * split; auto. cbn [right life_of]. eauto.
    + inversion E; subst i x gone; clear E. intros s' H. inversion H; subst s'; clear H. cbn [app].
      apply F; cbn; auto; [congruence|]. intros Q. destruct (Ok2 eq_refl Q) as (Q1 & Q2 & Q3). rewrite Q1, Q3. cbn. destruct m; auto; congruence.
  - (* SAlloc *) destruct c; apply G; auto; exact I.
  - (* SDoResume *)
    unfold do_resume. destruct (resumable (obj s) f) eqn:Re; [|apply G; auto; exact I].
    unfold resumable in Re. apply andb_prop in Re as [Re1 Re2]. intros s' H. inversion H; subst s'; clear H.
    assert (St: exists x, life_of (hist s) = LStopped x /\ stt (obj s) = x /\ drivers s = [] /\ img (obj s) <> None).
    { unfold life_inv in L. destruct (life_of (hist s)); repeat match goal with H : _ /\ _ |- _ => destruct H end; try congruence.
      - rewrite H1 in Re2. discriminate.
      - eauto 8.
      - rewrite H1 in Re2. discriminate.
      - destruct H0 as [[? ?]|(? & X & _)]; [congruence|]. rewrite X in Re2. discriminate. }
    destruct St as (x & Lx & Ex & Dr & Im). constructor; cbn [obj hist threads app ch shut].
    + unfold life_inv, drivers in *. cbn [obj hist threads app life_of ex stt st_state img named proc svc]. rewrite (drivers_start t SStart (SDoResume f)); auto.
      repeat split; auto. unfold closed. cbn [ch shut]. apply (not_closed_S (obj s)); auto.
    + intros c0 K. apply Sh in K. lia.
    + intros y Y. apply in_set in Y as [->|Y]; [exact I|]. eapply (wait_resume (obj s)); [apply W; exact Y|reflexivity].
    + split; auto. cbn [right]. exists x. split; auto. rewrite Ex in Re2. unfold suspended, halted.
      destruct (st_state x); try discriminate; [left|right]; split; auto; [now apply Z.eqb_eq|]. apply negb_true_iff, Z.eqb_neq in Re2. exact Re2.
  - (* SWaiting *)
    cbn [waiting_ok] in Wg. destruct Wg as (W1 & W2 & W3).
    assert (X: okinv (if closed (obj s) c0 then goto s t (SWaited since false) else Err)).
    { destruct (closed (obj s) c0) eqn:C; [|intros s' H; discriminate]. apply G; auto. cbn [waiting_ok]. split; auto.
      right. destruct W3 as [->|W3]; auto. right. unfold life_inv in L.
      destruct (life_of (hist s)); repeat match goal with H : _ /\ _ |- _ => destruct H end; try congruence; repeat split; discriminate. }
    destruct c; auto. apply G; auto. cbn [waiting_ok]. auto.
  - (* SWaited *)
    cbn [waiting_ok] in Wg. destruct Wg as (W1 & W2).
    eapply put_event; eauto; try exact I. cbn [right]. unfold life_inv in L.
    destruct (life_of (hist s)); repeat match goal with H : _ /\ _ |- _ => destruct H end; auto.
    + split; auto. destruct W2 as [W2|[W2|W2]]; auto. destruct W2 as [W2 _]. congruence.
    + split; auto. destruct W2 as [W2|[W2|W2]]; auto. destruct W2 as [_ [W2 _]]. congruence.
  - (* SSnapWait *) destruct (closed (obj s) c0); [apply G; auto; exact I|intros s' H; discriminate].
  - (* SSnapWaited *) apply G; auto; exact I.
  - (* SSnap *)
    assert (D: drives (if resume then SResume 0 else SDone) = false) by now destruct resume.
    assert (Wn: forall i h, waiting_ok i h (if resume then SResume 0 else SDone)) by (intros; destruct resume; exact I).
    destruct (negb (ex (obj s)) || is_running (obj s)) eqn:C; [apply G; auto|].
    apply orb_false_iff in C as [C1 C2]. apply negb_false_iff in C1. destruct (img (obj s)) as [m|] eqn:Im; [|intros s' H; discriminate].
    assert (X: okinv (put s (obj s) t (if resume then SResume 0 else SDone) [HSnap (stt (obj s))])).
    { eapply put_event; eauto. cbn [right]. unfold life_inv in L. unfold is_running in C2.
      destruct (life_of (hist s)); repeat match goal with H : _ /\ _ |- _ => destruct H end; try congruence.
      - rewrite H1 in C2. discriminate.
      - rewrite H1 in C2. discriminate.
      - destruct H0 as [[? ?]|(? & Y & _)]; [congruence|]. rewrite Y in C2. discriminate. }
    destruct c; auto.
  - (* SApply *) destruct (img (obj s)); [apply G; auto; exact I|intros s' H; discriminate].
  - (* SDone *) intros s' H; discriminate.
Qed.

Lemma step_inv s e : inv s -> okinv (step s e).
Proof.
  intros V. destruct e as [g|t c]; cbn [step]; [|now apply run_inv].
  destruct (request g) eqn:Q; [|intros s' H; discriminate]. intros s' H. inversion H; subst s'; clear H.
  destruct V as [L Sh W R]. constructor; cbn [obj hist threads]; auto.
  - unfold life_inv, drivers in *. cbn [obj hist threads]. rewrite filter_app. cbn [filter].
    replace (drives g) with false by (destruct g; try discriminate; reflexivity). rewrite app_nil_r. exact L.
  - intros y Y. apply in_app_or in Y as [Y|[<-|[]]]; auto. destruct g; try discriminate; exact I.
Qed.
Lemma steps_inv l : forall s s', inv s -> steps s l = Ok s' -> inv s'.
Proof.
  induction l as [|e l IH]; intros s s' V; cbn [steps]; [intros H; inversion H; subst; exact V|].
  destruct (step s e) as [s1| |] eqn:E; cbn [bind]; try discriminate. apply IH. eapply step_inv; eauto.
Qed.
