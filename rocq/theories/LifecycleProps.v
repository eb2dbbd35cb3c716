(* LifecycleProps.v: the status machine of instances (C32, C60). *)
From Verif Require Import LifecycleSpec LifecycleProofs.

Lemma reached t p m l s : steps (launch t p m) l = Ok s -> inv s.
Proof. apply steps_inv, launch_inv. Qed.

(* ---- C32 ---- *)

(* In every history of concurrent requests on an instance, every event is right after the events
   before it: an instance is started only once, or after having been resumed; it is resumed only
   when suspended (without a function) or halted (with a function); it is deleted only when it is
   stopped; waiting returns the status of the stopped instance. *)
Theorem lifecycle_right transient process m l s : steps (launch transient process m) l = Ok s -> all_right (hist s).
Proof. intros H. apply (i_right s). eapply reached; eauto. Qed.
Print Assumptions lifecycle_right.

(* There is at most one run at a time, and there is one exactly when the history says so. *)
Theorem one_run transient process m l s : steps (launch transient process m) l = Ok s ->
  (length (drivers s) <= 1)%nat /\
  (drivers s <> [] <-> life_of (hist s) = LNew \/ life_of (hist s) = LResuming \/ life_of (hist s) = LRunning) /\
  ((exists g, In g (threads s) /\ (g = SServe \/ exists r, g = SFinish r)) <-> life_of (hist s) = LRunning).
Proof.
  intros H. apply reached in H as [L _ _ _]. unfold life_inv in L.
  assert (D: forall g, In g (threads s) -> drives g = true -> In g (drivers s)) by (intros; apply filter_In; auto).
  assert (D': forall g, In g (drivers s) -> In g (threads s) /\ drives g = true) by (intros g G; now apply filter_In in G).
  assert (N: (exists g, In g (threads s) /\ (g = SServe \/ exists r, g = SFinish r)) -> exists g, In g (drivers s) /\ g <> SStart).
  { intros (g & G & X). exists g. split; [apply D; auto; destruct X as [->|[r ->]]; reflexivity|]. destruct X as [->|[r ->]]; discriminate. }
  destruct (life_of (hist s)) eqn:E; repeat match goal with H : _ /\ _ |- _ => destruct H end.
  1: rewrite H in *. 3: rewrite H in *. 4: rewrite H in *. 5: rewrite H in *. 6: rewrite H in *.
  all: cbn [length]; try (split; [lia|split; [split; [congruence|intros [?|[?|?]]; congruence]|split; [|discriminate]]];
    intros X; apply N in X as (g & [<-|[]] & X); congruence);
    try (split; [lia|split; [split; [auto|discriminate]|split; [|discriminate]]]; intros X; apply N in X as (g & [<-|[]] & X); congruence).
  - destruct H as (g & G & Gn). rewrite G in *. split; [cbn; lia|]. split; [split; [auto|discriminate]|]. split; auto. intros _.
    destruct (D' g) as [X Y]; [now left|]. exists g. split; auto. destruct g; try discriminate; [congruence|auto|eauto].
  - split; [lia|]. split; [split; [congruence|intros [?|[?|?]]; discriminate]|]. split; [|discriminate]. intros X. apply N in X as (g & [] & _).
  - split; [lia|]. split; [split; [congruence|intros [?|[?|?]]; discriminate]|]. split; [|discriminate]. intros X. apply N in X as (g & [] & _).
  - split; [lia|]. split; [split; [congruence|intros [?|[?|?]]; discriminate]|]. split; [|discriminate]. intros X. apply N in X as (g & [] & _).
Qed.
Print Assumptions one_run.

Lemma all_right_app h1 h2 : all_right (h1 ++ h2) -> all_right h2.
Proof. induction h1; cbn; tauto. Qed.

(* An instance that has terminated or been killed never runs again. *)
Theorem ended_forever transient process m l s : steps (launch transient process m) l = Ok s ->
  forall after x before, hist s = after ++ HStop x :: before -> ended x ->
  forall e, In e after -> e <> HRun /\ (forall f, e <> HResume f) /\ (forall y, e <> HStop y).
Proof.
  intros H after x before E En. pose proof (lifecycle_right _ _ _ _ _ H) as R. rewrite E in R. clear E H.
  assert (K: (forall e, In e after -> e <> HRun /\ (forall f, e <> HResume f) /\ (forall y, e <> HStop y)) /\
             (life_of (after ++ HStop x :: before) = LStopped x \/ life_of (after ++ HStop x :: before) = LGone)).
  { induction after as [|e after IH]; cbn [app] in *.
    - split; [intros e []|now left].
    - destruct R as [Re R]. destruct (IH R) as [A B]. split.
      + intros e' [<-|X]; auto. assert (N: ~ (suspended x \/ halted x)) by (unfold suspended, halted, ended in *; intuition congruence).
        destruct e; cbn [right] in Re; try (repeat split; intros; discriminate).
        * destruct B as [B|B]; rewrite B in Re; destruct Re; discriminate.
        * destruct B as [B|B]; rewrite B in Re; destruct Re; discriminate.
        * destruct Re as (y & Y1 & Y2). destruct B as [B|B]; rewrite B in Y1; [|discriminate]. inversion Y1; subst y. exfalso. apply N. tauto.
      + destruct e; cbn [right life_of] in *; auto.
        * destruct B as [B|B]; rewrite B in Re; destruct Re; discriminate.
        * destruct B as [B|B]; rewrite B in Re; destruct Re; discriminate.
        * destruct B as [B|B]; rewrite B in Re; destruct Re; discriminate.
        * destruct Re as (y & Y1 & Y2). destruct B as [B|B]; rewrite B in Y1; [|discriminate]. inversion Y1; subst y.
          exfalso. unfold suspended, halted, ended in *. intuition congruence.
        * destruct B as [B|B]; rewrite B in Re; destruct Re; discriminate. }
  apply K.
Qed.
Print Assumptions ended_forever.

(* The status that is shown is the one that the history says, and an instance which can be
   resumed is in storage; when it runs or is gone, it is not. *)
Theorem status_shown transient process m l s : steps (launch transient process m) l = Ok s ->
  match life_of (hist s) with
  | LNew => st_state (stt (obj s)) = Nonexistent
  | LRunning => st_state (stt (obj s)) = Running /\ named (obj s) = false
  | LResuming => st_state (stt (obj s)) = Running
  | LStopped x => stt (obj s) = x /\ ex (obj s) = true /\ (suspended x \/ halted x -> named (obj s) = true)
  | LGone => ex (obj s) = false /\ named (obj s) = false
  | LFailed => True
  end.
Proof.
  intros H. apply reached in H as [L _ _ _]. unfold life_inv in L.
  destruct (life_of (hist s)); repeat match goal with H : _ /\ _ |- _ => destruct H end; auto.
Qed.
Print Assumptions status_shown.

(* Launched, run, suspended, resumed by two clients at once (one of them is refused), killed. *)
Definition ran (trap : Z) : list event := [ERun 0 (CEnd (Served 0 trap false)); ERun 0 (CMut MutRan true)].
Definition trace1 : list event :=
  [ERun 0 COk; ERequest SWait; ERun 1 COk] ++ ran tSuspended ++
  [ERun 1 COk; ERun 1 COk; ERequest (SResume 0); ERequest (SResume 0); ERun 2 COk; ERun 3 COk; ERun 2 COk; ERun 3 COk; ERun 3 COk; ERun 2 COk;
   ERun 3 COk; ERun 3 (CEnd (Served 0 tKilled false)); ERun 3 (CMut MutRan true); ERequest (SResume 0); ERun 4 COk; ERequest SDelete; ERun 5 COk].
Example lifecycle_case : exists s, steps (launch false true (Marks true false 0 0)) trace1 = Ok s /\
  hist s = [HGone; HStop (Status StKilled 0 0); HRun; HResume 0; HWait 1 false (Status StSuspended 0 0); HStop (Status StSuspended 0 0); HRun] /\
  drivers s = [] /\ ended (Status StKilled 0 0).
Proof. eexists. split; [vm_compute; reflexivity|]. split; [reflexivity|]. split; [reflexivity|]. now right. Qed.
Example one_run_case : exists s, steps (launch false true (Marks true false 0 0)) [ERun 0 COk] = Ok s /\ drivers s = [SServe] /\ life_of (hist s) = LRunning.
Proof. eexists. split; [vm_compute; reflexivity|]. split; reflexivity. Qed.

(* ---- C60: what is wrong ---- *)

(* Requests crash only for the following reasons. *)
Theorem lifecycle_crash transient process m l s e : steps (launch transient process m) l = Ok s -> step s e = Panic ->
  img (obj s) = None /\ exists t c, e = ERun t c /\
  ((nth_error (threads s) t = Some SDebug \/ nth_error (threads s) t = Some SApply) /\ (life_of (hist s) = LGone \/ life_of (hist s) = LFailed) \/
   nth_error (threads s) t = Some SInfo /\ life_of (hist s) = LFailed /\ ex (obj s) = true).
Proof.
  intros H P. apply reached in H as V. pose proof (i_life s V) as L. unfold life_inv in L.
  destruct e as [g|t c]; cbn [step] in P; [destruct (request g); discriminate|].
  unfold run in P. destruct (nth_error (threads s) t) as [g|] eqn:T; [|discriminate].
  assert (Gone: img (obj s) = None -> life_of (hist s) = LGone \/ life_of (hist s) = LFailed).
  { intros I0. destruct (life_of (hist s)); repeat match goal with H : _ /\ _ |- _ => destruct H end; try congruence; auto. }
  assert (Stp: img (obj s) = None -> ex (obj s) = true -> life_of (hist s) = LFailed).
  { intros I0 I1. destruct (life_of (hist s)); repeat match goal with H : _ /\ _ |- _ => destruct H end; try congruence; auto. }
  assert (NR: img (obj s) = None -> ex (obj s) = true -> is_running (obj s) = true).
  { intros I0 I1. pose proof (Stp I0 I1) as X. rewrite X in L. destruct L as [_ [[? _]|(_ & Y & _)]]; [congruence|]. unfold is_running. now rewrite Y. }
  destruct g; try discriminate.
  - destruct (ex (obj s)) eqn:Ex; cbn [negb] in P; [|discriminate]. destruct (img (obj s)) eqn:Im; [discriminate|].
    split; auto. exists t, c. split; auto.
  - assert (Im: img (obj s) = None).
    { destruct c; try discriminate P; try (destruct (img (obj s)); [discriminate P|reflexivity]).
      destruct (is_running (obj s)); [discriminate|]. destruct (img (obj s)); [discriminate P|reflexivity]. }
    split; auto. exists t, c. split; auto.
  - destruct (negb (ex (obj s)) || is_running (obj s)) eqn:C; [discriminate|]. apply orb_false_iff in C as [C1 C2]. apply negb_false_iff in C1.
    exfalso. unfold annihilate in P. destruct (img (obj s)) eqn:Im; [discriminate|]. rewrite NR in C2; auto. discriminate.
  - destruct (resumable (obj s) f); discriminate.
  - destruct (is_running (obj s)); discriminate.
  - destruct (is_running (obj s)); discriminate.
  - exfalso. destruct (driving s t SStart V T eq_refl) as [Dr Li].
    assert (X: img (obj s) <> None /\ closed (obj s) (ch (obj s)) = false /\ proc (obj s) = svc (obj s) /\ (proc (obj s) = false -> named (obj s) = false)).
    { destruct Li as [Li|[Li|Li]]; rewrite Li in L; repeat match goal with H : _ /\ _ |- _ => destruct H end; repeat split; auto; congruence. }
    destruct X as (X1 & X2 & X3 & X4).
    assert (Y: start (obj s) c <> Panic).
    { unfold start. destruct (proc (obj s)) eqn:Pr; cbn [negb].
      - destruct (img (obj s)) eqn:Im; [|congruence].
        assert (St: forall b, stop (with_named (obj s) b) <> Panic).
        { intros b. unfold stop, close_stopped.
          match goal with |- context [if ?b then Panic else _] => replace b with false by (symmetry; exact X2) end.
          cbn [bind proc svc with_named]. rewrite <- X3, Pr. discriminate. }
        destruct c; try discriminate;
          match goal with |- (do _ <- ?x; _) <> _ => assert (Q: x <> Panic) by (try apply St; destruct (obj s); apply (St named)); destruct x; cbn [bind]; congruence end.
      - unfold store. destruct (img (obj s)) eqn:Im; [|congruence]. rewrite (X4 eq_refl).
        destruct c; try discriminate. cbn [with_named img]. rewrite Im. unfold close_stopped.
        match goal with |- context [if ?b then Panic else _] => replace b with false by (symmetry; exact X2) end. discriminate. }
    destruct (start (obj s) c) as [[i d]| |] eqn:E; cbn [bind] in P; try discriminate; [destruct d; discriminate|congruence].
  - destruct c; discriminate.
  - exfalso. destruct (driving s t (SFinish r) V T eq_refl) as [Dr Li]. destruct c; try discriminate.
    assert (Li': life_of (hist s) = LRunning).
    { destruct Li as [Li|[Li|Li]]; auto; rewrite Li in L; destruct L as (L & _); rewrite Dr in L; discriminate. }
    rewrite Li' in L. destruct L as (_ & L2 & L3 & L4 & L5 & L6 & L7 & L8).
    assert (Y: finish (obj s) r m0 stored <> Panic).
    { unfold finish. destruct (img (obj s)) as [k|] eqn:Im; [|congruence].
      destruct (drive (tr (obj s)) r m0 (stored && negb (named (obj s))) k) as [y k']. unfold stop, close_stopped.
      match goal with |- context [if ?b then Panic else Ok (Inst _ _ _ _ _ _ _ _ _)] => replace b with false by (symmetry; exact L8) end.
      cbn [bind proc svc with_stt with_img with_named]. rewrite L6, L7. cbn [negb orb bind tr].
      match goal with |- (if ?b then _ else _) <> _ => destruct b end; [cbn [annihilate img bind with_stt with_img]|]; discriminate. }
    destruct (finish (obj s) r m0 stored) as [[[i x] b]| |]; cbn [bind] in P; try discriminate. congruence.
  - destruct c; discriminate.
  - destruct (do_resume (obj s) f); discriminate.
  - destruct c; try discriminate; destruct (closed (obj s) c0); discriminate.
  - destruct (closed (obj s) c0); discriminate.
  - exfalso. destruct (negb (ex (obj s)) || is_running (obj s)) eqn:C; [destruct resume; discriminate|]. apply orb_false_iff in C as [C1 C2]. apply negb_false_iff in C1.
    destruct (img (obj s)) eqn:Im; [destruct c; discriminate|]. rewrite NR in C2; auto. discriminate.
  - destruct (img (obj s)) eqn:Im; [discriminate|]. split; auto. exists t, c. split; auto.
Qed.
Print Assumptions lifecycle_crash.

(* If the process of a resumed instance can't be started, the instance is left running, for
   ever, without a process: it can't be waited for, resumed or deleted, and asking for information
   about it crashes. *)
Lemma stuck_step s e s' : inv s -> life_of (hist s) = LFailed -> ex (obj s) = true -> step s e = Ok s' ->
  life_of (hist s') = LFailed /\ ex (obj s') = true.
Proof.
  intros V Lf Ex. pose proof (i_life s V) as L. unfold life_inv in L. rewrite Lf in L. destruct L as [Dr [[? _]|(_ & Rn & Im)]]; [congruence|].
  assert (R: is_running (obj s) = true) by (unfold is_running; now rewrite Rn).
  assert (G: forall t g s', goto s t g = Ok s' -> life_of (hist s') = LFailed /\ ex (obj s') = true) by (intros t g s0 H; inversion H; auto).
  destruct e as [g|t c]; cbn [step]; [destruct (request g); [|discriminate]; intros H; inversion H; auto|].
  unfold run. destruct (nth_error (threads s) t) as [g|] eqn:T; [|discriminate].
  assert (D: drives g = false). { destruct (drives g) eqn:D; auto. exfalso. apply (driver_in t g (threads s) _ T D) in Dr. contradiction. }
  destruct g; try discriminate D; rewrite ?Ex, ?R, ?Im; cbn [negb orb]; try discriminate; try (apply G).
  - intros H. inversion H. auto.
  - intros H. inversion H. auto.
  - destruct c; try discriminate; apply G.
  - destruct (resumable (obj s) f); apply G.
  - destruct c; apply G.
  - unfold do_resume, resumable. rewrite Rn, andb_false_r. apply G.
  - destruct c; try (apply G); destruct (closed (obj s) c0); try discriminate; apply G.
  - intros H. inversion H. auto.
  - destruct (closed (obj s) c0); [apply G|discriminate].
Qed.
Theorem resume_failed_refuted : exists l s, steps (launch false true (Marks true false 0 0)) l = Ok s /\
  hist s = [HFail; HResume 0; HStop (Status StSuspended 0 0); HRun] /\
  (forall l' s', steps s l' = Ok s' -> st_state (stt (obj s')) = Running /\ ex (obj s') = true /\ drivers s' = [] /\
     forall t, nth_error (threads s') t = Some SInfo -> step s' (ERun t COk) = Panic).
Proof.
  exists ([ERun 0 COk] ++ ran tSuspended ++ [ERequest (SResume 0); ERun 1 COk; ERun 1 COk; ERun 1 COk; ERun 1 CFail]).
  eexists. split; [vm_compute; reflexivity|]. split; [reflexivity|].
  match goal with |- forall l' s', steps ?s l' = _ -> _ => assert (V: inv s) by (eapply reached with (l := [ERun 0 COk] ++ ran tSuspended ++ [ERequest (SResume 0); ERun 1 COk; ERun 1 COk; ERun 1 COk; ERun 1 CFail]) (t := false) (p := true) (m := Marks true false 0 0); vm_compute; reflexivity);
    assert (A: life_of (hist s) = LFailed) by reflexivity; assert (B: ex (obj s) = true) by reflexivity; revert V A B; generalize s end.
  intros s V A B l'. revert s V A B. induction l' as [|e l' IH]; intros s V A B s'; cbn [steps].
  - intros H. inversion H; subst s'. pose proof (i_life s V) as L. unfold life_inv in L. rewrite A in L. destruct L as [Dr [[? _]|(_ & Rn & Im)]]; [congruence|].
    repeat split; auto. intros t T. cbn [step]. unfold run. rewrite T, B, Im. reflexivity.
  - destruct (step s e) as [s1| |] eqn:E; cbn [bind]; try discriminate. destruct (stuck_step s e s1 V A B E) as [A1 B1].
    apply IH; auto. eapply step_inv; eauto.
Qed.
Print Assumptions resume_failed_refuted.

(* An instance can be waited for before it has been started: the answer is that it doesn't exist. *)
Theorem wait_new_refuted : exists l s, steps (launch false true (Marks true false 0 0)) l = Ok s /\
  hist s = [HRun; HWait 0 false (Status Nonexistent 0 0)].
Proof. exists [ERequest SWait; ERun 1 COk; ERun 0 COk]. eexists. split; vm_compute; reflexivity. Qed.
Print Assumptions wait_new_refuted.

(* Waiting may return (though the client is still there) that the instance is running: if it is
   resumed before the status is read.  The status of the run that was waited for is lost. *)
Theorem wait_race_refuted : exists l s, steps (launch false true (Marks true false 0 0)) l = Ok s /\
  hist s = [HWait 1 false (Status Running 0 0); HRun; HResume 0; HStop (Status StSuspended tBreakpoint 0); HRun].
Proof.
  exists ([ERun 0 COk; ERequest SWait; ERun 1 COk] ++ ran tBreakpoint ++
    [ERun 1 COk; ERequest (SResume 0); ERun 2 COk; ERun 2 COk; ERun 2 COk; ERun 2 COk; ERun 1 COk]).
  eexists. split; vm_compute; reflexivity.
Qed.
Print Assumptions wait_race_refuted.

(* A debug request on an instance that is deleted meanwhile crashes. *)
Theorem debug_gone_refuted : exists l s t, steps (launch false true (Marks true false 0 0)) l = Ok s /\
  nth_error (threads s) t = Some SDebug /\ step s (ERun t COk) = Panic.
Proof.
  exists ([ERun 0 COk] ++ ran tSuspended ++ [ERequest SDebug; ERequest SDelete; ERun 2 COk]). eexists. exists 1%nat.
  split; [vm_compute; reflexivity|]. split; vm_compute; reflexivity.
Qed.
Print Assumptions debug_gone_refuted.

(* A function must be given when a halted instance is resumed, but nothing is done with it: the
   image still has no entry function when the process is started. *)
Theorem resume_function_refuted : forall f, f <> 0 -> exists l s m, steps (launch false true (Marks true false 0 0)) l = Ok s /\
  hist s = [HRun; HResume f; HStop (Status Halted 0 0); HRun] /\ img (obj s) = Some m /\ m_entry m = false.
Proof.
  intros f F. exists ([ERun 0 COk] ++ ran tExit ++ [ERequest (SResume f); ERun 1 COk; ERun 1 COk; ERun 1 COk; ERun 1 COk]).
  destruct f as [|f|f]; [congruence| |]; eexists; exists (Marks false false 0 0); (split; [vm_compute; reflexivity|]); repeat split.
Qed.
Print Assumptions resume_function_refuted.
