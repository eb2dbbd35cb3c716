(* ExitStatusProps.v: C36 (exit statuses) and C54 (reported status). *)
From Verif Require Import Base ExitStatus.

(* ---- C36 ---- *)

Lemma land127 w : Z.land w 127 = w mod 128.
Proof. change 127 with (Z.ones 7). now rewrite Z.land_ones by lia. Qed.
Lemma exit_status_spec w : ExitStatus w = (w / 256) mod 256.
Proof. unfold ExitStatus. change 255 with (Z.ones 8). rewrite Z.land_ones by lia. now rewrite Z.shiftr_div_pow2 by lia. Qed.

(* A wait status, described: the low seven bits are zero if the process exited, with the
   code in the next byte but one; otherwise, unless they are all ones, a signal. *)
Definition exited_with (w n : Z) : Prop := w mod 128 = 0 /\ (w / 256) mod 256 = n.
Definition died_of (w s : Z) : Prop := w mod 128 = s /\ s <> 0 /\ s <> 127.
(* These four kinds of ending give way to a kill request. *)
Definition yields (t : Z) : Prop := t = 0 \/ t = 2 \/ t = 10 \/ t = 27.

Definition is_error (s : served) : Prop := sv_err s = true.
Definition is_trap (s : served) (t : Z) : Prop := sv_err s = false /\ sv_trap s = t.

Local Ltac five := split; [|split; [|split; [|split]]].
Definition over (c : ctl) (t : Z) : Z :=
  if killRequested c && ((t =? tExit) || (t =? tSuspended) || (t =? tBreakpoint) || (t =? tABIDeficiency)) then tKilled else t.
Lemma over_live c t : c <> Killed -> over c t = t.
Proof. unfold over. destruct c; cbn; congruence. Qed.
Lemma over_yields t : yields t -> over Killed t = tKilled.
Proof. intros [->|[->|[->| ->]]]; reflexivity. Qed.
Lemma over_not t : ~ yields t -> over Killed t = t.
Proof.
  intros N. unfold over, yields, tExit, tSuspended, tBreakpoint, tABIDeficiency in *. cbn [killRequested andb].
  destruct (Z.eqb_spec t 0), (Z.eqb_spec t 2), (Z.eqb_spec t 10), (Z.eqb_spec t 27); cbn; try reflexivity; exfalso; apply N; tauto.
Qed.
Lemma yields_dec t : yields t \/ ~ yields t.
Proof. unfold yields. lia. Qed.

Lemma Serve_exited w n c : exited_with w n -> Serve None (Some w) c =
  if (0 <=? n) && (n <=? 3) then Served n (over c tExit) false
  else if (100 <=? n) && (n <=? 127) then Served 0 (over c (n - 100)) false else Served 0 tInternalError true.
Proof.
  intros [E N]. unfold Serve, Exited. rewrite land127, E, Z.eqb_refl, exit_status_spec, N. reflexivity.
Qed.
Lemma Serve_signaled w s c : died_of w s -> Serve None (Some w) c =
  if (s =? SIGKILL) && killRequested c then Served 0 tKilled false
  else if s =? SIGXCPU then Served 0 tSuspended false else Served 0 tInternalError true.
Proof.
  intros (E & N0 & N1). unfold Serve, Exited, Signaled, Signal. rewrite land127, E.
  destruct (Z.eqb_spec s 0); [congruence|]. destruct (Z.eqb_spec s 127); [congruence|]. reflexivity.
Qed.
Lemma Serve_other w c : w mod 128 = 127 -> Serve None (Some w) c = Served 0 tInternalError true.
Proof. intros E. unfold Serve, Exited, Signaled. rewrite land127, E. reflexivity. Qed.
Lemma status_cases w : (exists n, exited_with w n /\ 0 <= n <= 255) \/ (exists s, died_of w s) \/ w mod 128 = 127.
Proof.
  destruct (Z.eq_dec (w mod 128) 0) as [E|E].
  - left. exists ((w / 256) mod 256). split; [split; [exact E|reflexivity]|]. pose proof (Z.mod_pos_bound (w / 256) 256 ltac:(lia)). lia.
  - destruct (Z.eq_dec (w mod 128) 127) as [F|F]; [right; right; exact F|]. right. left. exists (w mod 128). repeat split; assumption.
Qed.

(* Every wait status (any integer, not just 2^32 of them) and every request state lead to
   exactly one of these: *)
Theorem serve_cases_exact : forall w c,
  let s := Serve None (Some w) c in
  (* a result *)
  (is_trap s tExit <-> c <> Killed /\ exists n, exited_with w n /\ (0 <= n <= 3 \/ n = 100)) /\
  (* with the value and the kind that the process gave *)
  (forall n, is_trap s tExit -> exited_with w n -> 0 <= n <= 3 ->
     Value (sv_code s) = n mod 2 /\ (Terminated (sv_code s) = true <-> 2 <= n)) /\
  (* killed *)
  (is_trap s tKilled <-> c = Killed /\ (died_of w 9 \/ exists n, exited_with w n /\ (0 <= n <= 3 \/ 100 <= n <= 127 /\ yields (n - 100)))) /\
  (* some other trap *)
  (forall t, t <> tExit -> t <> tKilled -> (is_trap s t <->
     (exited_with w (t + 100) /\ 0 < t <= 27 /\ ~ (c = Killed /\ yields t)) \/ (t = tSuspended /\ died_of w 24))) /\
  (* an internal error *)
  (is_error s <-> (forall n, exited_with w n -> ~ (0 <= n <= 3) /\ ~ (100 <= n <= 127)) /\ ~ died_of w 24 /\ ~ (c = Killed /\ died_of w 9)).
Proof.
  intros w c s. subst s.
  assert (KD : c = Killed \/ c <> Killed) by (destruct c; (left; reflexivity) || (right; discriminate)).
  destruct (status_cases w) as [(n & E & B)|[(s & D)|O]].
  - rewrite (Serve_exited _ _ c E).
    assert (U : forall k, exited_with w k -> k = n) by (intros k [_ K]; destruct E as [_ E]; congruence).
    assert (ND : forall s, ~ died_of w s) by (intros s (X & Y & _); destruct E as [E _]; congruence).
    destruct (Z.leb_spec 0 n); [|lia]. destruct (Z.leb_spec n 3) as [N3|N3]; cbn [andb].
    + assert (OV : c <> Killed /\ over c tExit = tExit \/ c = Killed /\ over c tExit = tKilled) by (destruct c; (left; split; [discriminate|reflexivity]) || (right; split; reflexivity)).
      unfold is_trap, is_error. cbn [sv_err sv_trap sv_code]. five.
      * split.
        -- intros [_ X]. destruct OV as [[K _]|[_ Q]]; [|rewrite Q in X; discriminate]. split; [exact K|]. exists n. split; [exact E|lia].
        -- intros [K _]. destruct OV as [[_ Q]|[Q _]]; [split; [reflexivity|exact Q]|contradiction].
      * intros k _ X R. apply U in X. subst k. split.
        -- unfold Value. change 1 with (Z.ones 1). now rewrite Z.land_ones by lia.
        -- assert (HN : n = 0 \/ n = 1 \/ n = 2 \/ n = 3) by lia. unfold Terminated. destruct HN as [->|[->|[->| ->]]]; cbn; split; intros; try discriminate; try lia; reflexivity.
      * split.
        -- intros [_ X]. destruct OV as [[_ Q]|[Q _]]; [rewrite Q in X; discriminate|]. split; [exact Q|]. right. exists n. split; [exact E|lia].
        -- intros [K _]. destruct OV as [[Q _]|[_ Q]]; [contradiction|]. split; [reflexivity|exact Q].
      * intros t T1 T2. split.
        -- intros [_ Q]. exfalso. destruct OV as [[_ V]|[_ V]]; rewrite V in Q; congruence.
        -- intros [(X & T & _)|(_ & X)]; [apply U in X; lia|now apply ND in X].
      * split; [discriminate|]. intros [X _]. specialize (X n E). lia.
    + destruct ((100 <=? n) && (n <=? 127)) eqn:N1.
      * apply andb_prop in N1. destruct N1 as [N1 N2]. apply Z.leb_le in N1. apply Z.leb_le in N2.
        unfold is_trap, is_error. cbn [sv_err sv_trap sv_code].
        destruct (yields_dec (n - 100)) as [Y|Y].
        -- assert (OV : c <> Killed /\ over c (n - 100) = n - 100 \/ c = Killed /\ over c (n - 100) = tKilled) by (destruct c; (left; split; [discriminate|apply over_live; discriminate]) || (right; split; [reflexivity|now apply over_yields])).
           five.
           ++ split.
              ** intros [_ X]. destruct OV as [[K Q]|[_ Q]]; rewrite Q in X; [|discriminate]. unfold tExit in X. split; [exact K|]. exists n. split; [exact E|lia].
              ** intros [K (k & X & R)]. apply U in X. subst k. destruct OV as [[_ Q]|[Q _]]; [|contradiction]. split; [reflexivity|]. rewrite Q. unfold tExit. lia.
           ++ intros k _ X R. apply U in X. lia.
           ++ split.
              ** intros [_ X]. destruct OV as [[_ Q]|[Q _]]; [rewrite Q in X; unfold tKilled in X; unfold yields in Y; lia|]. split; [exact Q|]. right. exists n. split; [exact E|]. right. split; [lia|exact Y].
              ** intros [K _]. destruct OV as [[Q _]|[_ Q]]; [contradiction|]. split; [reflexivity|exact Q].
           ++ intros t T1 T2. split.
              ** intros [_ Q]. destruct OV as [[NK V]|[_ V]]; rewrite V in Q; [|congruence]. left. subst t. replace (n - 100 + 100) with n by lia. split; [exact E|]. split; [unfold tExit in *; lia|]. intros [K _]. contradiction.
              ** intros [(X & T & NK)|(_ & X)]; [|now apply ND in X]. apply U in X. split; [reflexivity|]. destruct OV as [[_ V]|[K V]]; [rewrite V; lia|]. exfalso. apply NK. split; [exact K|]. replace t with (n - 100) by lia. exact Y.
           ++ split; [discriminate|]. intros [X _]. specialize (X n E). lia.
        -- assert (OV : over c (n - 100) = n - 100) by (destruct c; try (apply over_live; discriminate); now apply over_not).
           rewrite OV. five.
           ++ split.
              ** intros [_ X]. exfalso. apply Y. left. exact X.
              ** intros [K (k & X & R)]. apply U in X. subst k. exfalso. apply Y. left. lia.
           ++ intros k _ X R. apply U in X. lia.
           ++ split.
              ** intros [_ X]. unfold tKilled in X. lia.
              ** intros [_ [X|(k & X & R)]]; [now apply ND in X|]. apply U in X. subst k. exfalso. destruct R as [R|[_ R]]; [lia|contradiction].
           ++ intros t T1 T2. split.
              ** intros [_ Q]. left. subst t. replace (n - 100 + 100) with n by lia. split; [exact E|]. split; [unfold tExit in *; lia|]. intros [_ K]. contradiction.
              ** intros [(X & T & NK)|(_ & X)]; [|now apply ND in X]. apply U in X. split; [reflexivity|lia].
           ++ split; [discriminate|]. intros [X _]. specialize (X n E). lia.
      * assert (R : ~ (100 <= n <= 127)) by (intros [R1 R2]; apply Z.leb_le in R1; apply Z.leb_le in R2; rewrite R1, R2 in N1; discriminate).
        unfold is_trap, is_error. cbn [sv_err sv_trap sv_code]. five.
        -- split; [intros [X _]; discriminate|]. intros [_ (k & X & Y)]. apply U in X. lia.
        -- intros k [X _]. discriminate.
        -- split; [intros [X _]; discriminate|]. intros [_ [X|(k & X & Y)]]; [now apply ND in X|apply U in X; lia].
        -- intros t _ _. split; [intros [X _]; discriminate|]. intros [(X & T & _)|(_ & X)]; [apply U in X; lia|now apply ND in X].
        -- split; [|reflexivity]. intros _. split; [intros k X; apply U in X; lia|]. split; [apply ND|intros [_ X]; now apply ND in X].
  - rewrite (Serve_signaled _ _ c D).
    assert (NE : forall n, ~ exited_with w n) by (intros n [X _]; destruct D as (D & N & _); congruence).
    assert (U : forall k, died_of w k -> k = s) by (intros k (X & _); destruct D as (D & _); congruence).
    assert (KK : killRequested c = true <-> c = Killed) by (destruct c; cbn; split; congruence).
    destruct ((s =? SIGKILL) && killRequested c) eqn:SK.
    + apply andb_prop in SK. destruct SK as [SK K]. apply Z.eqb_eq in SK. apply KK in K. subst s c.
      unfold is_trap, is_error. cbn [sv_err sv_trap sv_code]. five.
      * split; [intros [_ X]; discriminate|]. intros [X _]. congruence.
      * intros k [_ X]. discriminate.
      * split; [|split; reflexivity]. intros _. split; [reflexivity|]. left. exact D.
      * intros t _ T. split; [intros [_ Q]; congruence|]. intros [(X & _)|(_ & X)]; [now apply NE in X|apply U in X; discriminate].
      * split; [discriminate|]. intros (_ & _ & X). exfalso. apply X. split; [reflexivity|exact D].
    + assert (NK : ~ (c = Killed /\ died_of w 9)).
      { intros [K X]. apply U in X. subst s. apply KK in K. rewrite K in SK. discriminate. }
      destruct (Z.eqb_spec s SIGXCPU) as [SX|SX].
      * subst s. unfold is_trap, is_error. cbn [sv_err sv_trap sv_code]. five.
        -- split; [intros [_ X]; discriminate|]. intros [_ (k & X & _)]. now apply NE in X.
        -- intros k [_ X]. discriminate.
        -- split; [intros [_ X]; discriminate|]. intros [_ [X|(k & X & _)]]; [apply U in X; discriminate|now apply NE in X].
        -- intros t _ _. split; [intros [_ Q]; right; split; [congruence|exact D]|]. intros [(X & _)|(T & X)]; [now apply NE in X|]. split; congruence.
        -- split; [discriminate|]. intros (_ & X & _). exfalso. apply X. exact D.
      * unfold is_trap, is_error. cbn [sv_err sv_trap sv_code]. five.
        -- split; [intros [X _]; discriminate|]. intros [_ (k & X & _)]. now apply NE in X.
        -- intros k [X _]. discriminate.
        -- split; [intros [X _]; discriminate|]. intros [K [X|(k & X & _)]]; [exfalso; apply NK; split; assumption|now apply NE in X].
        -- intros t _ _. split; [intros [X _]; discriminate|]. intros [(X & _)|(_ & X)]; [now apply NE in X|apply U in X; unfold SIGXCPU in *; congruence].
        -- split; [|reflexivity]. intros _. split; [intros k X; now apply NE in X|]. split; [|exact NK]. intros X. apply U in X. unfold SIGXCPU in *. congruence.
  - rewrite (Serve_other _ _ O).
    assert (NE : forall n, ~ exited_with w n) by (intros n [X _]; congruence).
    assert (ND : forall s, ~ died_of w s) by (intros s (X & _ & Y); congruence).
    unfold is_trap, is_error. cbn [sv_err sv_trap sv_code]. five.
    + split; [intros [X _]; discriminate|]. intros [_ (k & X & _)]. now apply NE in X.
    + intros k [X _]. discriminate.
    + split; [intros [X _]; discriminate|]. intros [_ [X|(k & X & _)]]; [now apply ND in X|now apply NE in X].
    + intros t _ _. split; [intros [X _]; discriminate|]. intros [(X & _)|(_ & X)]; [now apply NE in X|now apply ND in X].
    + split; [|reflexivity]. intros _. split; [intros k X; now apply NE in X|]. split; [apply ND|]. intros [_ X]. now apply ND in X.
Qed.
Print Assumptions serve_cases_exact.
Example serve_example :
  Serve None (Some (exited_status 3)) Finalized = Served 3 tExit false /\ Terminated 3 = true /\ Value 3 = 1 /\
  Serve None (Some (exited_status 103)) Killed = Served 0 tUnreachable false /\
  Serve None (Some (exited_status 102)) Killed = Served 0 tKilled false /\
  Serve None (Some (signaled_status SIGXCPU false)) Suspended = Served 0 tSuspended false /\
  Serve None (Some (signaled_status 11 true)) Finalized = Served 0 tInternalError true.
Proof. repeat split. Qed.

(* What the program did is what is reported. *)
Definition ending_ok (e : ending) : Prop :=
  match e with
  | Returned r => 0 <= r < 2 ^ 32
  | ProcExit s => 0 <= s < 2 ^ 32
  | Trapped id => 1 <= id <= 27 /\ id <> 4     (* 4 is StackExhausted *)
  | GrowFailed addr => 0 <= addr < 2 ^ 47 /\ addr mod 4096 = 0
  | _ => True
  end.
Inductive report := RResult (terminated : bool) (value : Z) | RTrap (id : Z) | RError.
Definition report_of (s : served) : report :=
  if sv_err s then RError else if sv_trap s =? tExit then RResult (Terminated (sv_code s)) (Value (sv_code s)) else RTrap (sv_trap s).
Definition truth (e : ending) : report :=
  match e with
  | Returned r => RResult false (if r =? 0 then 0 else 1)
  | ProcExit s => RResult true (if s =? 0 then 0 else 1)
  | Trapped id => RTrap id
  | StackExhausted true => RTrap tSuspended
  | StackExhausted false => RTrap tCallStackExhausted
  | Deficient => RTrap tABIDeficiency
  | OutOfBounds => RTrap tMemoryAccessOutOfBounds
  | GrowFailed _ | ReadFailed | WriteFailed => RError
  end.
Lemma exited_status_spec code : exited_with (exited_status code) (code mod 256).
Proof.
  unfold exited_with, exited_status. split.
  - replace (code mod 256 * 256) with (code mod 256 * 2 * 128) by lia. apply Z.mod_mul. lia.
  - rewrite Z.div_mul by lia. rewrite Z.mod_mod; lia.
Qed.
Theorem ending_reported_partial : forall a e c, ending_ok e -> c <> Killed -> (forall addr, ~ (a = X86_64 /\ e = GrowFailed addr)) ->
  report_of (Serve None (Some (exited_status (exit_code a e))) c) = truth e.
Proof.
  intros a e c OK NK NG. rewrite (Serve_exited _ _ c (exited_status_spec _)).
  destruct e as [r|s|id|sus| | |addr| |]; cbn [exit_code truth ending_ok] in *.
  - destruct (r =? 0); cbn; rewrite (over_live _ _ NK); reflexivity.
  - destruct (s =? 0); cbn; rewrite (over_live _ _ NK); reflexivity.
  - rewrite (Z.mod_small (id + 100)) by lia. destruct (Z.leb_spec 0 (id + 100)); [|lia]. destruct (Z.leb_spec (id + 100) 3); [lia|]. cbn [andb].
    destruct (Z.leb_spec 100 (id + 100)); [|lia]. destruct (Z.leb_spec (id + 100) 127); [|lia]. cbn [andb]. replace (id + 100 - 100) with id by lia.
    rewrite (over_live _ _ NK). unfold report_of. cbn [sv_err sv_trap]. unfold tExit. destruct (Z.eqb_spec id 0); [lia|reflexivity].
  - destruct sus; cbn; rewrite (over_live _ _ NK); reflexivity.
  - cbn; rewrite (over_live _ _ NK); reflexivity.
  - cbn; rewrite (over_live _ _ NK); reflexivity.
  - destruct a; [exfalso; now apply (NG addr)|reflexivity].
  - reflexivity.
  - reflexivity.
Qed.
Print Assumptions ending_reported_partial.
Example ending_example : ending_ok (ProcExit 7) /\ truth (ProcExit 7) = RResult true 1 /\ exit_code X86_64 (ProcExit 7) = 3.
Proof. repeat split; lia. Qed.
(* C36, refuted: on x86-64 the failure to extend a program's memory is reported as
   success, because the error code is put in the wrong register. *)
Theorem grow_failure_refuted : forall addr c, ending_ok (GrowFailed addr) -> c <> Killed ->
  truth (GrowFailed addr) = RError /\
  report_of (Serve None (Some (exited_status (exit_code X86_64 (GrowFailed addr)))) c) = RResult false 0.
Proof.
  intros addr c [R A] NK. split; [reflexivity|]. rewrite (Serve_exited _ _ c (exited_status_spec _)). cbn [exit_code].
  assert (Q : (addr mod 2 ^ 32) mod 256 = 0).
  { apply Z.mod_divide in A; [|lia]. destruct A as [k ->]. change (2 ^ 32) with (4096 * 1048576). rewrite (Z.mul_comm k), Z.mul_mod_distr_l by lia.
    replace (4096 * (k mod 1048576)) with (16 * (k mod 1048576) * 256) by lia. apply Z.mod_mul. lia. }
  rewrite Q. cbn. rewrite (over_live _ _ NK). reflexivity.
Qed.
Print Assumptions grow_failure_refuted.
Example grow_failure_example : ending_ok (GrowFailed 140000000000000) \/ ending_ok (GrowFailed 139999999819776).
Proof. right. split; [lia|reflexivity]. Qed.
(* C36, refuted: an exit code that stands for trap 0 is reported as success. *)
Theorem exit_100_refuted : forall c, c <> Killed -> report_of (Serve None (Some (exited_status 100)) c) = RResult false 0.
Proof. intros c NK. rewrite (Serve_exited _ 100 c (exited_status_spec 100)). cbn. rewrite (over_live _ _ NK). reflexivity. Qed.
Print Assumptions exit_100_refuted.

(* Kill requests.  The first of kill, suspend and finalize decides. *)
Theorem kill_first_exact : forall l, killRequested (ctl_run Live l) = true <-> exists l', l = CKill :: l'.
Proof.
  assert (K : forall c l, c <> Live -> ctl_run c l = c) by (intros c l; revert c; induction l; intros c N; cbn; [reflexivity|]; replace (ctl_step c a) with c by (destruct c; [congruence|reflexivity..]); now apply IHl).
  intros [|o l]; [cbn; split; [discriminate|intros (l' & X); discriminate]|]. change (ctl_run Live (o :: l)) with (ctl_run (ctl_step Live o) l). rewrite K by (destruct o; discriminate).
  destruct o; cbn; split; try discriminate; try (intros (l' & X); discriminate); try reflexivity. intros _. now exists l.
Qed.
Print Assumptions kill_first_exact.
(* C36, refuted: a kill request after the suspension request is forgotten, and the program
   is reported to be suspended although it was killed in the meantime. *)
Theorem kill_after_suspend_refuted : forall l,
  killRequested (ctl_run Live (CSuspend :: l)) = false /\
  forall w, exited_with w 102 \/ died_of w SIGXCPU -> report_of (Serve None (Some w) (ctl_run Live (CSuspend :: CKill :: l))) = RTrap tSuspended.
Proof.
  intros l. assert (K : forall l, ctl_run Suspended l = Suspended) by (clear l; induction l; cbn; auto).
  assert (Q : forall l, ctl_run Live (CSuspend :: l) = Suspended) by (clear l; intros l; apply (K l)).
  split; [now rewrite Q|]. intros w H. rewrite Q. destruct H as [H|H].
  - now rewrite (Serve_exited _ _ _ H).
  - now rewrite (Serve_signaled _ _ _ H).
Qed.
Print Assumptions kill_after_suspend_refuted.

(* ---- C54 ---- *)

(* Whatever the end of a run, the status that an instance shows is the one that its image
   implies, so an instance created from that image without running it shows it, too. *)
Definition coherent_run (transient : bool) (s : served) (mut : mutation) (stored : bool) : Prop :=
  sv_err s = false /\ (transient = true \/ stored = true) /\
  (mut = MutRan \/ mut = MutFresh /\ sv_trap s <> tExit \/ mut = MutErr /\ sv_trap s = tKilled).
Theorem status_agrees_partial : forall transient s mut stored m,
  coherent_run transient s mut stored -> m_final m = false -> 0 <= sv_trap s ->
  let r := drive transient s mut stored m in status_of_image (snd r) = fst r.
Proof.
  intros tr s mut stored m (E & ST & M) F T. cbn zeta. unfold drive. rewrite E, F.
  assert (B : (match mut with MutErr => false | _ => true end) && negb tr && negb stored = false) by (destruct ST as [-> | ->]; [now rewrite andb_false_r|now rewrite andb_false_r]).
  rewrite B. clear B. cbn [orb].
  set (entry := match mut with MutRan => false | _ => m_entry m end).
  assert (EN : sv_trap s = tExit -> entry = false) by (intros X; destruct M as [->|[[_ N]|[_ K]]]; [reflexivity|congruence|rewrite X in K; discriminate]).
  assert (G : forall A B : status * marks, (match mut, sv_trap s =? tKilled with MutErr, false => A | _, _ => B end) = B).
  { intros A B. destruct M as [->|[[-> _]|[-> K]]]; [reflexivity|reflexivity|]. now rewrite K. }
  rewrite G. clear G M. clearbody entry.
  destruct (Z.eqb_spec (sv_trap s) tExit) as [X|X].
  - rewrite X, (EN X). cbn [fst snd]. unfold status_of_image. cbn [m_final m_trap m_entry m_result st_state st_result].
    destruct (tr || Terminated (sv_code s)); reflexivity.
  - clear EN.
    unfold trapStatus. destruct (Z.eqb_spec (sv_trap s) tSuspended) as [S|S]; [rewrite S; reflexivity|].
    destruct ((sv_trap s =? tCallStackExhausted) || (sv_trap s =? tABIDeficiency) || (sv_trap s =? tBreakpoint)) eqn:D.
    + cbn [fst snd]. unfold status_of_image. cbn [m_final m_trap m_entry m_result st_state st_result state_num Z.leb Z.compare]. apply Z.eqb_neq in X. rewrite X. unfold trapStatus. apply Z.eqb_neq in S. rewrite S, D. reflexivity.
    + destruct (Z.eqb_spec (sv_trap s) tKilled) as [K|K]; cbn [fst snd]; unfold status_of_image; cbn [m_final m_trap m_entry m_result st_state st_result state_num Z.leb Z.compare].
      * rewrite K. reflexivity.
      * apply Z.eqb_neq in X. rewrite X. apply Z.eqb_neq in K. rewrite K. reflexivity.
Qed.
Print Assumptions status_agrees_partial.
Example status_example :
  drive false (Served 1 tExit false) MutRan true (Marks true false 2 0) = (Status Halted 0 1, Marks false false 0 1) /\
  drive false (Served 0 10 false) MutRan true (Marks true false 0 0) = (Status StSuspended 10 0, Marks false false 10 0) /\
  drive true (Served 0 tExit false) MutRan true (Marks true false 2 0) = (Status StTerminated 0 0, Marks false true 0 0).
Proof. repeat split. Qed.

(* Which states follow from which endings. *)
Theorem run_states_exact : forall transient s mut stored m, sv_err s = false -> 0 <= sv_trap s ->
  let st := fst (drive transient s mut stored m) in
  (st_state st = Halted <-> sv_trap s = tExit /\ mut <> MutErr /\ (transient = false /\ stored = true) /\ Terminated (sv_code s) = false) /\
  (st_state st = StTerminated <-> sv_trap s = tExit /\ mut <> MutErr /\ (transient = true \/ stored = true /\ Terminated (sv_code s) = true)) /\
  (st_state st = StSuspended <-> (sv_trap s = 2 \/ sv_trap s = 4 \/ sv_trap s = 10 \/ sv_trap s = 27) /\ mut <> MutErr /\ (transient = true \/ stored = true)) /\
  st_state st <> Running /\ st_state st <> Nonexistent.
Proof.
  intros tr s mut stored m E T. cbn zeta. unfold drive. rewrite E.
  destruct (Z.eqb_spec (sv_trap s) tExit) as [X|X].
  - rewrite X. change (tExit =? tKilled) with false. cbv iota.
    destruct mut, tr, stored; cbn [fst st_state andb negb orb]; try destruct (Terminated (sv_code s)) eqn:TE; repeat split; intros; try discriminate; try tauto; try congruence; try (intuition congruence).
    all: try (destruct H as (_ & _ & [?|[_ ?]]); congruence). 
    all: unfold tExit in *; intuition congruence.
  - assert (TS : trapStatus (sv_trap s) = (StSuspended, snd (trapStatus (sv_trap s))) /\ (sv_trap s = 2 \/ sv_trap s = 4 \/ sv_trap s = 10 \/ sv_trap s = 27) /\ sv_trap s <> 30 \/
                 trapStatus (sv_trap s) = (StKilled, snd (trapStatus (sv_trap s))) /\ ~ (sv_trap s = 2 \/ sv_trap s = 4 \/ sv_trap s = 10 \/ sv_trap s = 27)).
    { unfold trapStatus, tSuspended, tCallStackExhausted, tABIDeficiency, tBreakpoint, tKilled.
      destruct (Z.eqb_spec (sv_trap s) 2); [left; repeat split; [tauto|lia]|]. destruct (Z.eqb_spec (sv_trap s) 4); [left; cbn [orb]; repeat split; [tauto|lia]|]. destruct (Z.eqb_spec (sv_trap s) 27); [left; cbn [orb]; repeat split; [tauto|lia]|]. destruct (Z.eqb_spec (sv_trap s) 10); [left; cbn [orb]; repeat split; [tauto|lia]|]. cbn [orb].
      destruct (Z.eqb_spec (sv_trap s) 30); right; cbn [snd]; (split; [reflexivity|lia]). }
    destruct (trapStatus (sv_trap s)) as [st c]. cbn [snd] in TS.
    destruct TS as [(Q & Y & N)|(Q & Y)]; (assert (SQ : st = fst (st, c)) by reflexivity); rewrite Q in SQ; cbn [fst] in SQ; subst st.
    + assert (K : sv_trap s =? tKilled = false) by (apply Z.eqb_neq; exact N). rewrite K.
      destruct mut, tr, stored; cbn [fst st_state andb negb orb]; repeat split; intros; try discriminate; try congruence; try tauto; try (intuition congruence).
    + destruct (sv_trap s =? tKilled); destruct mut, tr, stored; cbn [fst st_state andb negb orb]; repeat split; intros; try discriminate; try congruence; try tauto; try (intuition congruence).
Qed.
Print Assumptions run_states_exact.

(* C54, refuted: if the state of the stopped program is found to be inconsistent, or it
   cannot be stored, the instance is killed by an internal error, but its image says
   what the program said. *)
Theorem status_disagrees_refuted : forall code m stored, m_final m = false ->
  let r := drive false (Served code tExit false) MutErr stored m in
  fst r = Status StKilled causeInternal 0 /\ status_of_image (snd r) = Status StTerminated causeNormal 0.
Proof. intros code m stored F. cbn zeta. unfold drive. cbn. rewrite F. cbn. split; reflexivity. Qed.
Print Assumptions status_disagrees_refuted.
Theorem status_unstored_refuted : forall t m, m_final m = false -> t = 2 \/ t = 4 \/ t = 10 ->
  let r := drive false (Served 0 t false) MutRan false m in
  fst r = Status StKilled causeInternal 0 /\ st_cause (status_of_image (snd r)) = t.
Proof. intros t m F [->|[->| ->]]; cbn zeta; unfold drive; cbn; rewrite F; cbn; split; reflexivity. Qed.
Print Assumptions status_unstored_refuted.
