(* ServerProps.v: program reference counting (C30) and isolation of accounts (C31). *)
From Verif Require Import ServerSpec ServerProofs Server2Proofs.

(* A history used in the examples.  Principal 1 uploads module 100, pins it with tag 7 and
   launches an instance with id 50, which starts; principal 2 asks for the module and the
   instance. *)
Definition upload1 : stage := SBuild None (Args (Some 1) 100 true [7] (Some 50)).
Definition trace1 : list event :=
  [ERequest upload1; ERun 0 COk; ERun 0 COk; ERun 0 COk;
   ERequest (SInfo 1 100); ERun 1 COk; ERequest (SInfo 2 100); ERun 2 COk;
   ERequest (SInst 2 50 IDelete); ERun 3 COk; ERequest (SInst 1 50 IRef); ERun 4 COk;
   ERequest (SContent 1 100); ERun 5 COk; ERequest (SUnpin 1 100); ERun 6 COk].
Definition state1 : st := match steps (start (Some 9) [200]) trace1 with Ok s => s | _ => start None [] end.
(* then everything ends, and the server is shut down *)
Definition trace2 : list event :=
  [ERun 4 COk; ERun 4 COk; ERun 5 COk; EShutdown; ERun 5 COk; ERun 0 CNonexistent; ERun 0 COk; ERun 0 COk].

Lemma reach_steps s0 l : forall s s', reach s0 s -> steps s l = Ok s' ->
  (forall k e s1, nth_error l k = Some e -> steps s (firstn k l) = Ok s1 -> ~ start_fails s1 e) -> reach s0 s'.
Proof.
  induction l as [|e l IH]; intros s s' R H N; cbn [steps] in H.
  - inversion H; subst. exact R.
  - destruct (step s e) as [s1| |] eqn:E; cbn [bind] in H; try discriminate.
    apply (IH s1); auto.
    + eapply RStep; eauto. apply (N 0%nat); reflexivity.
    + intros k e' s2 K F. apply (N (S k)); auto. cbn [firstn steps]. rewrite E. exact F.
Qed.
Lemma no_cfail l : Forall (fun e => match e with ERun _ CFail => False | _ => True end) l ->
  forall s k e s1, nth_error l k = Some e -> steps s (firstn k l) = Ok s1 -> ~ start_fails s1 e.
Proof.
  intros F s k e s1 H _ (t & n & o & -> & _). rewrite Forall_forall in F. apply nth_error_In in H. apply F in H. exact H.
Qed.

(* ---- C30 ---- *)

(* At every point of every history in which no instance fails to start, the reference counts of
   programs are exact, and the images that are closed are exactly those that nobody refers to. *)
Theorem server_exact_partial owner ids s : NoDup ids -> reach (start owner ids) s -> exact s.
Proof. intros N R. apply exact_balanced. apply (i_bal s). eapply reach_inv; eauto. Qed.
Print Assumptions server_exact_partial.

(* Nor does the server ever panic in such a history: not because of a reference count, nor
   because a closed image is used.  (The last step may be anything.) *)
Theorem server_no_crash_partial owner ids s e : NoDup ids -> reach (start owner ids) s -> step s e <> Panic.
Proof.
  intros N R H. assert (I: inv s) by (eapply reach_inv; eauto).
  assert (D: start_fails s e \/ ~ start_fails s e).
  { destruct e as [g|t c|]; try (right; intros (t & n & o & X & _); discriminate).
    destruct c; try (right; intros (t' & n & o & X & _); discriminate).
    destruct (nth_error (threads s) t) as [g|] eqn:G.
    - destruct g; try (right; intros (t' & n' & o' & X & Y); inversion X; subst; rewrite G in Y; discriminate).
      left. exists t, n, o. auto.
    - right. intros (t' & n & o & X & Y). inversion X; subst. congruence. }
  destruct D as [(t & n & o & -> & Y)|D].
  - cbn [step] in H. unfold run in H. rewrite Y in H. discriminate.
  - pose proof (step_inv s e I D) as X. rewrite H in X. exact X.
Qed.
Print Assumptions server_no_crash_partial.

(* While the server runs, the programs in its program map can be used; when it has been shut
   down and every request and instance has ended, every image has been closed. *)
Theorem server_no_leak_partial owner ids s : NoDup ids -> reach (start owner ids) s ->
  (forall m o b, In (m, o) (progs s) -> nth_error (objs s) o = Some b -> opened b = true /\ pid b = m) /\
  (closed s = true -> (forall g, In g (threads s) -> held g = []) -> forall b, In b (objs s) -> opened b = false /\ refs b = 0).
Proof.
  intros N R. pose proof (reach_inv _ _ _ N R) as I. pose proof (server_exact_partial _ _ _ N R) as [E _].
  split.
  - intros m o b P H. split.
    + apply (E o b H). unfold holders. apply in_or_app. left. apply in_map_iff. exists (m, o). auto.
    + pose proof (wf_progs s (i_wf s I) m o P) as X. unfold pid_of in X. rewrite H in X. cbn in X. congruence.
  - intros C T b J. apply In_nth_error in J as [o J]. destruct (E o b J) as [X Y].
    destruct (wf_closed s (i_wf s I) C) as (P1 & P2 & P3).
    assert (Z0: holders s = []).
    { unfold holders. rewrite P1, P2, P3. cbn [map app]. clear - T. induction (threads s) as [|g l IH]; auto.
      cbn [flat_map]. rewrite (T g) by (now left). apply IH. intros g' J. apply T. now right. }
    rewrite Z0 in X, Y. split; auto. destruct (opened b); auto. exfalso. apply Y. reflexivity.
Qed.
Print Assumptions server_no_leak_partial.

Example server_exact_case :
  reach (start (Some 9) [200]) state1 /\
  objs state1 = [Obj 200 2 true; Obj 100 5 true] /\
  (* the map; the instance; the driver; the request on the instance; the download *)
  count_occ Nat.eq_dec (holders state1) 1%nat = 5%nat.
Proof.
  split; [|split; vm_compute; reflexivity].
  apply (reach_steps _ trace1 (start (Some 9) [200])); [constructor|vm_compute; reflexivity|].
  apply no_cfail. repeat (constructor; [exact I|]). constructor.
Qed.
Example server_no_leak_case : exists s, steps state1 trace2 = Ok s /\ reach (start (Some 9) [200]) s /\ closed s = true /\
  flat_map held (threads s) = [] /\ objs s = [Obj 200 0 false; Obj 100 0 false].
Proof.
  eexists. split; [vm_compute; reflexivity|]. split; [|vm_compute; auto].
  apply (reach_steps _ trace2 state1); [apply server_exact_case|vm_compute; reflexivity|].
  apply no_cfail. repeat (constructor; [exact I|]). constructor.
Qed.

(* When an instance fails to start, the reference is dropped twice (server.go:1166-1181: by
   _runOrDeleteInstance, and by its caller whose deferred call still has the program).  Principal
   1 uploads module 100 and launches it; the process can't be started (for example because there
   are too many of them).  The count becomes zero although the program is in the program map, and
   the image is closed.  The next request which mentions the module, by any principal, panics. *)
Theorem server_refcount_refuted : exists l s,
  steps (start None []) l = Ok s /\ progs s = [(100, 0%nat)] /\ objs s = [Obj 100 0 false] /\ ~ exact s /\
  (forall p, steps s [ERequest (SRef 100 (Args (Some p) 100 true [] None)); ERun 1 COk] = Panic).
Proof.
  exists [ERequest (SBuild None (Args (Some 1) 100 false [] (Some 50))); ERun 0 COk; ERun 0 COk; ERun 0 CFail; ERun 0 COk; ERun 0 COk; ERun 0 COk].
  eexists. split; [vm_compute; reflexivity|]. split; [reflexivity|]. split; [reflexivity|]. split.
  - intros [E _]. destruct (E 0%nat (Obj 100 0 false) eq_refl) as [X _]. vm_compute in X. discriminate.
  - intros p. vm_compute. reflexivity.
Qed.
Print Assumptions server_refcount_refuted.

(* ---- C31 ---- *)

(* In every history, every event which a client can see is right after the events before it. *)
Theorem server_isolated owner ids l s : NoDup ids -> steps (start owner ids) l = Ok s -> all_right (hist s).
Proof. intros N H. apply a_right. eapply steps_acct; [apply (l_acct _ _ (start_ok owner ids N))|eauto]. Qed.
Print Assumptions server_isolated.

Lemma all_right_app h1 h2 : all_right (h1 ++ h2) -> all_right h2.
Proof. induction h1; cbn; tauto. Qed.

(* In words: *)
(* a module's information is returned, the content is opened for reading, an instance is
   created of a module by its id, or the module is unpinned, exactly if the principal has the
   module pinned; *)
Theorem module_access owner ids l s : NoDup ids -> steps (start owner ids) l = Ok s -> forall after before p m,
  (forall r, hist s = after ++ HInfo p m r :: before -> r = pinned before p m) /\
  (forall ok, hist s = after ++ HContent p m ok :: before -> ok = true <-> pinned before p m <> None) /\
  (forall ok, hist s = after ++ HNew p m ok :: before -> ok = true <-> pinned before p m <> None) /\
  (forall ok, hist s = after ++ HUnpin p m ok :: before -> ok = true <-> pinned before p m <> None) /\
  (forall r, hist s = after ++ HModules p r :: before -> forall ts, In (m, ts) r <-> pinned before p m = Some ts).
Proof.
  intros N H after before p m. pose proof (server_isolated _ _ _ _ N H) as R.
  assert (Q: forall e, hist s = after ++ e :: before -> right before e).
  { intros e E. rewrite E in R. apply all_right_app in R. apply R. }
  assert (B: forall ok (o : option (list Z)), ok = is_some o -> (ok = true <-> o <> None)).
  { intros ok o ->. destruct o; cbn; split; congruence. }
  split; [|split; [|split; [|split]]].
  - intros r E. apply Q in E. apply E.
  - intros ok E. apply Q in E. apply B, E.
  - intros ok E. apply Q in E. apply B, E.
  - intros ok E. apply Q in E. apply B, E.
  - intros r E ts. apply Q in E. cbn [right] in E. apply E.
Qed.
Print Assumptions module_access.

(* whoever has a module pinned, or has an instance of it, has supplied the module itself: it
   has sent the contents, or has made it as a snapshot of an instance of its own (or it is the
   owner of a server that found it in storage); *)
Theorem module_supplied owner ids l s : NoDup ids -> steps (start owner ids) l = Ok s -> forall p m,
  (pinned (hist s) p m <> None -> supplied (hist s) p m) /\
  (forall i n, In (HLaunch p i m n) (hist s) -> supplied (hist s) p m).
Proof.
  intros N H p m. pose proof (server_isolated _ _ _ _ N H) as R.
  assert (Mono: forall h1 h2, supplied h2 p m -> supplied (h1 ++ h2) p m).
  { intros h1 h2 [X|[X|[i X]]]; [left|right; left|right; right; exists i]; apply in_or_app; auto. }
  split.
  - intros P. eapply a_sup; eauto. eapply steps_acct; [apply (l_acct _ _ (start_ok owner ids N))|eauto].
  - intros i n J. apply in_split in J as (h1 & h2 & E). rewrite E in *. apply all_right_app in R.
    destruct R as [(_ & X & _) _]. apply Mono. now apply (Mono [HLaunch p i m n]).
Qed.
Print Assumptions module_supplied.

(* a request on an instance finds exactly the instance which the same principal has launched
   with that id and which has not been deleted; an instance is never launched twice. *)
Theorem instance_access owner ids l s : NoDup ids -> steps (start owner ids) l = Ok s -> forall after before p i,
  (forall r, hist s = after ++ HInst p i r :: before -> r = owns before p i) /\
  (forall n, owns (hist s) p i = Some n -> exists m, In (HLaunch p i m n) (hist s)) /\
  (forall p' i' m m' n, In (HLaunch p i m n) (hist s) -> In (HLaunch p' i' m' n) (hist s) -> p = p' /\ i = i' /\ m = m').
Proof.
  intros N H after before p i. pose proof (server_isolated _ _ _ _ N H) as R. split; [|split].
  - intros r E. rewrite E in R. apply all_right_app in R. apply R.
  - intros n. generalize (hist s). intros h. induction h as [|e h IH]; cbn [owns]; [discriminate|].
    assert (X: owns h p i = Some n -> exists m, In (HLaunch p i m n) (e :: h)).
    { intros J. destruct (IH J) as [m Y]. exists m. now right. }
    destruct e; auto; try discriminate.
    + destruct (Z.eqb_spec p0 p) as [->|]; cbn [andb]; auto. destruct (Z.eqb_spec i0 i) as [->|]; auto.
      intros E. inversion E; subst. exists m. now left.
    + destruct (owns h p i) as [k|]; try discriminate. destruct (Nat.eqb k n0); [discriminate|]. exact X.
  - revert R. generalize (hist s). intros h R p' i' m m' n. induction h as [|e h IH]; [contradiction|].
    destruct R as [Re R]. intros [J|J] [J'|J'].
    + subst e. inversion J'. auto.
    + subst e. destruct Re as (_ & _ & X). destruct (X _ _ _ J').
    + subst e. destruct Re as (_ & _ & X). destruct (X _ _ _ J).
    + now apply IH.
Qed.
Print Assumptions instance_access.

Example isolation_case : exists s, steps (start (Some 9) [200]) trace1 = Ok s /\
  hist s = [HUnpin 1 100 true; HContent 1 100 true; HInst 1 50 (Some 0%nat); HInst 2 50 None; HInfo 2 100 None;
            HInfo 1 100 (Some [7]); HLaunch 1 50 100 0; HPin 1 100 [7]; HSupplied 1 100; HPin 9 200 []; HStored 9 200] /\
  pinned (hist s) 1 100 = None /\ owns (hist s) 1 50 = Some 0%nat /\ supplied (hist s) 1 100 /\ ~ supplied (hist s) 2 100.
Proof.
  eexists. split; [vm_compute; reflexivity|]. split; [vm_compute; reflexivity|]. split; [reflexivity|]. split; [reflexivity|]. split.
  - left. vm_compute. auto 12.
  - intros [X|[X|[i X]]]; vm_compute in X; repeat (destruct X as [X|X]; [discriminate|]); contradiction.
Qed.
