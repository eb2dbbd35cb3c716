(* BreakpointsProps.v: properties C33 (breakpoint configuration) and C52 (only
   stopped instances are reconfigured). *)
From Verif Require Import BaseLemmas ListLemmas Breakpoints BreakpointsProofs.
From Coq Require Import Sorted.

(* What a debug request means, in terms of the configuration before and after. *)
Definition meaning (r : dreq) (old new : bool * list Z) : Prop :=
  match d_op r, d_config r with
  | ConfigSet, Some (info, b) => fst new = info /\ (forall x, In x (snd new) <-> In x (elems b))
  | ConfigUnion, Some (info, b) => fst new = orb (fst old) info /\ (forall x, In x (snd new) <-> In x (snd old) \/ In x (elems b))
  | ConfigComplement, Some (info, b) => fst new = andb (fst old) (negb info) /\ (forall x, In x (snd new) <-> In x (snd old) /\ ~ In x (elems b))
  | _, _ => new = old
  end.

Definition config (i : inst) : bool * list Z := (i_info i, elems (i_breaks i)).
Definition flat (c : bool * slc) : bool * list Z := (fst c, elems (snd c)).

(* strictly increasing and at most 100 *)
Definition valid (l : list Z) : Prop := StronglySorted Z.lt l /\ len l <= 100.

Definition prog_ok (p : prog) : Prop := match p with None => True | Some (_, b) => valid (elems b) end.

(* A program's breakpoints, from a module's snapshot section, of which the
   reader lets through at most 100. *)
Theorem program_breakpoints_valid : forall snap,
  (forall b, snap = Some b -> len (elems b) <= 100) -> prog_ok (prog_of snap) /\ valid (elems (i_breaks (start_inst (prog_of snap)))).
Proof.
  intros [b|] H; cbn [prog_of prog_ok start_inst].
  - destruct (sortdedup_spec b) as (A & _ & C). specialize (H b eq_refl).
    assert (V : valid (elems (SortDedup b))) by (split; [exact A|unfold len in *; lia]). split; [exact V|].
    cbn [i_breaks]. destruct (elems (SortDedup b)) as [|x t] eqn:E; cbn [elems]; [split; [constructor|cbn; lia]|exact V].
  - split; [exact I|]. cbn. split; [constructor|cbn; lia].
Qed.
Print Assumptions program_breakpoints_valid.

Definition pend_ok (q : pending) : Prop :=
  valid (elems (snd (p_new q))) /\ meaning (p_req q) (flat (p_old q)) (flat (p_new q)).
Definition DInv (s : dsys) : Prop := valid (elems (i_breaks (d_inst s))) /\ Forall pend_ok (d_pend s).

Lemma new_config_ok i r so info b m : valid (elems (i_breaks i)) -> new_config i r so = Ok (info, b, m) ->
  valid (elems b) /\ meaning r (config i) (info, elems b) /\ (m = false -> (info, elems b) = config i).
Proof.
  intros [VS VL] E. unfold new_config in E. destruct (d_op r) eqn:OP; try discriminate; try (injection E as <- <- <-; unfold meaning, config; rewrite OP; repeat split; auto; fail);
    destruct (i_running i); try discriminate; destruct (d_config r) as [[ci cb]|] eqn:C; try discriminate;
    try (destruct so; [injection E as <- <- <-; unfold meaning, config; rewrite OP; repeat split; auto|discriminate]; fail).
  - destruct (len (elems cb) >? MaxBreakpoints) eqn:G; [discriminate|]. injection E as <- <- <-.
    destruct (sortdedup_spec cb) as (A & B & L). unfold MaxBreakpoints in G. split; [split; [exact A|unfold len in *; lia]|].
    split; [unfold meaning; rewrite OP, C; cbn [fst snd]; auto|]. intros Q. apply orb_false_elim in Q. destruct Q as [Q1 Q2].
    apply negb_false_iff in Q1, Q2. apply eqb_prop in Q1. apply deep_equal_eq in Q2. unfold config. congruence.
  - destruct (len (elems (i_breaks i)) + len (elems cb) >? MaxBreakpoints) eqn:G; [discriminate|].
    destruct (union_loop (elems cb) (elems (i_breaks i)) (ci && negb (i_info i))) as [b' m'] eqn:U. injection E as <- <- <-.
    pose proof (union_loop_spec (elems cb) (elems (i_breaks i)) (ci && negb (i_info i)) VS) as (A & B & L & D). rewrite U in A, B, L, D. cbn [fst snd] in *.
    unfold MaxBreakpoints in G. cbn [elems]. split; [split; [exact A|unfold len in *; lia]|].
    split; [unfold meaning; rewrite OP, C; cbn [fst snd]; auto|]. intros ->. rewrite D by reflexivity. unfold config. f_equal.
    assert (K : ci && negb (i_info i) = false).
    { destruct (ci && negb (i_info i)) eqn:K; [|reflexivity]. exfalso. assert (GG : forall l b, snd (union_loop l b true) = true).
      { clear. induction l as [|y l IH]; intros bb; cbn; [reflexivity|]. destruct (_ || _); apply IH. } specialize (GG (elems cb) (elems (i_breaks i))). rewrite U in GG. discriminate. }
    destruct ci, (i_info i); cbn in *; congruence.
  - destruct (complement_loop (elems cb) (elems (i_breaks i)) (ci && i_info i)) as [b' m'] eqn:U. injection E as <- <- <-.
    pose proof (complement_loop_spec (elems cb) (elems (i_breaks i)) (ci && i_info i) VS) as (A & B & L & D). rewrite U in A, B, L, D. cbn [fst snd] in *.
    cbn [elems]. split; [split; [exact A|unfold len in *; lia]|].
    split; [unfold meaning; rewrite OP, C; cbn [fst snd]; auto|]. intros ->. rewrite D by reflexivity. unfold config. f_equal.
    assert (K : ci && i_info i = false).
    { destruct (ci && i_info i) eqn:K; [|reflexivity]. exfalso. assert (GG : forall l b, snd (complement_loop l b true) = true).
      { clear. induction l as [|y l IH]; intros bb; cbn; [reflexivity|]. destruct (_ && _); apply IH. } specialize (GG (elems cb) (elems (i_breaks i))). rewrite U in GG. discriminate. }
    destruct ci, (i_info i); cbn in *; congruence.
Qed.

Lemma debug_ok i p r so i' q c : valid (elems (i_breaks i)) -> prog_ok p -> debug i p r so = Ok (i', q, c) ->
  valid (elems (i_breaks i')) /\ i_running i' = i_running i /\ flat c = config i' /\
  match q with None => meaning r (config i) (config i') | Some q => i' = i /\ p_req q = r /\ pend_ok q /\ flat (p_old q) = config i end.
Proof.
  intros V P E. unfold debug in E. destruct (new_config i r so) as [[[info b] m]| |] eqn:N; try discriminate. cbn [bind] in E.
  destruct (new_config_ok _ _ _ _ _ _ V N) as (A & B & C). destruct m.
  - destruct p as [[pi pb]|]; [|discriminate]. destruct (eqb info pi && deep_equal b pb) eqn:Q.
    + apply andb_prop in Q. destruct Q as [Q1 Q2]. apply deep_equal_eq in Q2. subst pb. injection E as <- <- <-.
      cbn [i_breaks i_running i_info]. unfold config, flat. cbn [i_breaks i_info fst snd]. rewrite set_breaks_elems. auto.
    + injection E as <- <- <-. repeat split; auto; first [apply V|apply A].
  - injection E as <- <- <-. specialize (C eq_refl). unfold flat; cbn [fst snd]. repeat split; auto; try apply V. rewrite <- C at 2. exact B.
Qed.

Lemma dstep_inv p f s e s' c : prog_ok p -> DInv s -> dstep p f s e = Ok (s', c) -> DInv s'.
Proof.
  intros P [V Q] E. destruct e as [r so|k| |]; cbn [dstep] in E.
  - destruct (debug (d_inst s) p r so) as [[[i' q] c']| |] eqn:D; try discriminate; [|injection E as <- _; split; auto].
    destruct (debug_ok _ _ _ _ _ _ _ V P D) as (A & _ & _ & B). destruct q as [q|]; injection E as <- _; split; cbn [d_inst d_pend]; auto.
    apply Forall_app. split; [assumption|]. constructor; [apply B|constructor].
  - destruct (nth_error (d_pend s) k) as [q|] eqn:N; [|injection E as <- _; split; auto].
    destruct (rebuild_ok _ _); [|injection E as <- _; split; auto]. unfold apply in E. destruct (_ && _); [|injection E as <- _; split; auto].
    injection E as <- _. split; cbn [d_inst d_pend i_breaks]; [|assumption]. rewrite set_breaks_elems.
    rewrite Forall_forall in Q. apply nth_error_In in N. apply Q in N. apply N.
  - injection E as <- _. split; auto.
  - injection E as <- _. split; auto.
Qed.
Lemma drun_inv p f es : forall s s', prog_ok p -> DInv s -> drun p f s es = Ok s' -> DInv s'.
Proof.
  induction es as [|e t IH]; intros s s' P I R; cbn [drun] in R; [now injection R as <-|].
  destruct (dstep p f s e) as [[s1 c]| |] eqn:E; try discriminate. cbn [bind] in R. eapply IH; [assumption| |exact R]. eapply dstep_inv; eassumption.
Qed.

(* The instance after any history of concurrent debug requests, runs and stops. *)
Definition reached (p : prog) (f : Z -> bool) (i0 : inst) (es : list devent) (s : dsys) : Prop :=
  prog_ok p /\ valid (elems (i_breaks i0)) /\ drun p f (Dsys i0 []) es = Ok s.
Lemma reached_inv p f i es s : reached p f i es s -> DInv s.
Proof. intros (P & V & R). eapply drun_inv; [exact P| |exact R]. split; [exact V|constructor]. Qed.

(* C33: the breakpoints are always in strictly increasing order, and at most 100. *)
Theorem breakpoints_valid : forall p settable i0 es s,
  reached p settable i0 es s -> valid (elems (i_breaks (d_inst s))).
Proof. intros p f i es s H. apply (reached_inv _ _ _ _ _ H). Qed.
Print Assumptions breakpoints_valid.

(* C33: each request that succeeds takes effect exactly, as one atomic change of
   the configuration at that moment, and responds with the result; one that has
   not completed (or fails) changes nothing. *)
Definition request_of (s : dsys) (e : devent) : option dreq :=
  match e with
  | DRequest r _ => Some r
  | DApply k => option_map p_req (nth_error (d_pend s) k)
  | _ => None
  end.
Theorem debug_request_exact : forall p settable i0 es s e s' c,
  reached p settable i0 es s -> dstep p settable s e = Ok (s', c) ->
  match c with
  | Some c => exists r, request_of s e = Some r /\ meaning r (config (d_inst s)) (config (d_inst s')) /\ flat c = config (d_inst s')
  | None => config (d_inst s') = config (d_inst s)
  end.
Proof.
  intros p f i0 es s e s' c H E. pose proof (reached_inv _ _ _ _ _ H) as [V Q]. destruct H as (P & _ & _). destruct e as [r so|k| |]; cbn [dstep] in E.
  - destruct (debug (d_inst s) p r so) as [[[i' q] c']| |] eqn:D; try discriminate; [|injection E as <- <-; reflexivity].
    destruct (debug_ok _ _ _ _ _ _ _ V P D) as (A & _ & B & C). destruct q as [q|]; injection E as <- <-.
    + destruct C as (-> & _). reflexivity.
    + exists r. auto.
  - destruct (nth_error (d_pend s) k) as [q|] eqn:N; [|injection E as <- <-; reflexivity].
    destruct (rebuild_ok _ _); [|injection E as <- <-; reflexivity]. unfold apply in E. destruct (_ && _) eqn:G; [|injection E as <- <-; reflexivity].
    injection E as <- <-. exists (p_req q). cbn [request_of]. rewrite N. split; [reflexivity|]. cbn [d_inst]. unfold flat, config. cbn [i_info i_breaks fst snd]. rewrite set_breaks_elems.
    split; [|reflexivity]. rewrite Forall_forall in Q. pose proof (nth_error_In _ _ N) as I. apply Q in I. destruct I as [_ M].
    apply andb_prop in G. destruct G as [G1 G2]. apply eqb_prop in G1. apply deep_equal_eq in G2. unfold flat in M. rewrite <- G1, <- G2 in M. exact M.
  - injection E as <- <-. reflexivity.
  - injection E as <- <-. reflexivity.
Qed.
Print Assumptions debug_request_exact.

Definition snapprog : prog := prog_of (Some (Some [30; 10; 30; 20])).
Example debug_example : exists s s' s'',
  reached snapprog (fun _ => true) (start_inst snapprog) [DRequest (Dreq ConfigUnion (Some (false, Some [25; 5; 25]))) true; DRequest (Dreq ConfigComplement (Some (true, Some [10; 11]))) true] s /\
  elems (i_breaks (d_inst s)) = [10; 20; 30] /\
  dstep snapprog (fun _ => true) s (DApply 0) = Ok (s', Some (false, Some [5; 10; 20; 25; 30])) /\
  (* the second one is in conflict with it *)
  dstep snapprog (fun _ => true) s' (DApply 1) = Ok (s'', None).
Proof.
  do 3 eexists. split; [split; [|split]|].
  - cbn. split; [repeat constructor|cbn; lia].
  - cbn. split; [repeat constructor|cbn; lia].
  - vm_compute. reflexivity.
  - repeat split; vm_compute; reflexivity.
Qed.

(* C33: the documented limit is exact for set requests; a union is refused if
   the counts of old and given offsets sum to more than 100. *)
Theorem breakpoint_limit : forall i r so info b,
  i_running i = false -> d_config r = Some (info, b) ->
  (d_op r = ConfigSet -> (new_config i r so = Err <-> len (elems b) > 100)) /\
  (d_op r = ConfigUnion -> (new_config i r so = Err <-> len (elems (i_breaks i)) + len (elems b) > 100)) /\
  (d_op r = ConfigComplement -> new_config i r so <> Err).
Proof.
  intros i r so info b R C. unfold new_config. rewrite R, C. repeat split; intros; unfold MaxBreakpoints in *;
    match goal with H : d_op r = _ |- _ => rewrite H in * end.
  - destruct (_ >? _) eqn:G in *; [lia|discriminate].
  - destruct (_ >? _) eqn:G in *; [reflexivity|lia].
  - destruct (_ >? _) eqn:G in *; [lia|]. destruct (union_loop _ _ _). discriminate.
  - destruct (_ >? _) eqn:G in *; [reflexivity|lia].
  - destruct (complement_loop _ _ _). discriminate.
Qed.
Print Assumptions breakpoint_limit.

(* C33 does not hold in full: changing the configuration of an instance of an
   ordinary program (not a snapshot) crashes the server (nil dereference), and so
   do requests without a configuration. *)
Theorem debug_ordinary_program_refuted : forall i r so info b m,
  new_config i r so = Ok (info, b, m) -> m = true -> debug i None r so = Panic.
Proof. intros i r so info b m N ->. unfold debug. rewrite N. reflexivity. Qed.
Print Assumptions debug_ordinary_program_refuted.
Example debug_ordinary_example :
  let r := Dreq ConfigSet (Some (true, None)) in
  exists c, new_config (start_inst None) r true = Ok (c, true) /\ debug (start_inst None) None r true = Panic.
Proof. eexists. split; vm_compute; reflexivity. Qed.
Theorem debug_no_config_refuted : exists i p r so, i_running i = false /\ debug i p r so = Panic /\ d_op r = ConfigSet /\ prog_ok p /\ p <> None.
Proof. exists (start_inst snapprog), snapprog, (Dreq ConfigSet None), true. repeat split; try (vm_compute; reflexivity); [repeat constructor|cbn; lia|discriminate]. Qed.
Print Assumptions debug_no_config_refuted.

(* What remains: with a configuration, on an instance of a snapshot, the
   configuration requests do not crash the server. *)
Theorem debug_no_panic_partial : forall i p r so,
  p <> None -> d_config r <> None -> d_op r <> ReadGlobals -> d_op r <> ReadMemory -> debug i p r so <> Panic.
Proof.
  intros i p r so P C G M. unfold debug. assert (N : new_config i r so <> Panic).
  { unfold new_config. destruct (d_op r); try congruence; destruct (i_running i); try discriminate; destruct (d_config r) as [[ci cb]|]; try congruence;
      try destruct (_ >? _); try discriminate; try destruct (union_loop _ _ _); try destruct (complement_loop _ _ _); try discriminate; destruct so; discriminate. }
  destruct (new_config i r so) as [[[info b] m]| |]; try congruence; cbn [bind]; [|discriminate].
  destruct m; [|discriminate]. destruct p as [[pi pb]|]; [|congruence]. destruct (_ && _); discriminate.
Qed.
Print Assumptions debug_no_panic_partial.

(* C52: a request made when the instance is running does not change it... *)
Theorem debug_running_unchanged_partial : forall i p r so i' q c,
  i_running i = true -> debug i p r so = Ok (i', q, c) -> i' = i /\ q = None.
Proof.
  intros i p r so i' q c R E. unfold debug, new_config in E. rewrite R in E. destruct (d_op r); try discriminate. cbn [bind] in E. injection E as <- <- _. auto.
Qed.
Print Assumptions debug_running_unchanged_partial.

(* ... but one made before the instance was resumed does change it (and the
   program image which it is running on). *)
Theorem debug_running_refuted : exists p settable i0 es s s' c,
  reached p settable i0 es s /\ i_running (d_inst s) = true /\ dstep p settable s (DApply 0) = Ok (s', Some c) /\
  config (d_inst s') <> config (d_inst s) /\ i_alt (d_inst s) = false /\ i_alt (d_inst s') = true.
Proof.
  exists snapprog, (fun _ => true), (start_inst snapprog), [DRequest (Dreq ConfigSet (Some (false, Some [7]))) true; DRun]. do 3 eexists.
  split; [split; [|split]|].
  - cbn. split; [repeat constructor|cbn; lia].
  - cbn. split; [repeat constructor|cbn; lia].
  - vm_compute. reflexivity.
  - split; [reflexivity|]. split; [vm_compute; reflexivity|]. split; [discriminate|]. split; reflexivity.
Qed.
Print Assumptions debug_running_refuted.
