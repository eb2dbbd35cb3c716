(* LocalClientProps.v: the local client's commands ask of the server what they say (C136). *)
From Verif Require Import LocalClient.
From Verif Require Import RoutesProps ClientProps.
From Coq Require Import Lia.

(* ---- Specification ---- *)
(* The module argument is the id of a known module, or a file's name. *)
Definition is_file (arg : string) : Prop := (exists a b, arg = a +++ "/" +++ b) \/ (exists a b, arg = a +++ "." +++ b).
Inductive module_arg (c : config) (arg : string) : source -> Prop :=
| A_id : ~ is_file arg -> module_arg c arg (Known arg)
| A_file : is_file arg -> module_arg c arg (Upload (Content arg) (pin_ c) (moduleTags c)).
Definition log_file (c : config) : option file := if debugLog c then Some DebugLog else None.
Definition and_wait (c : config) (i : string) : list op := if wait_ c then [OWait i] else [].
(* Resolving names of functions and lines needs the module. *)
Definition resolution (t : told) (i : string) (l : list location) (ops : list op) : Prop :=
  ((forall s, ~ In (Named s) l) -> ops = []) /\
  ((exists s, In (Named s) l) -> ops = [ODebug i (DReq ConfigGet false []); ODownload (t_module t) Sink]).
Inductive breakpoints (t : told) : list location -> list Z -> Prop :=
| B_nil : breakpoints t [] []
| B_offset : forall n l r, breakpoints t l r -> breakpoints t (Offset n :: l) (n :: r)
| B_named : forall s l r, breakpoints t l r -> breakpoints t (Named s :: l) (t_resolve t s ++ r).

Inductive means (c : lconfig) (t : told) : lcmd -> list op -> Prop :=
| M_call : forall arg f m, module_arg (base c) arg m ->
    means c t (LCall arg f) [OCall m (Launch (last_or f (function_ (base c))) true false (instanceTags (base c))) (scope_ c) Quit Stdin Stdout (log_file (base c))]
| M_launch : forall arg f tags m, module_arg (base c) arg m ->
    means c t (LLaunch arg f tags)
      [OLaunch m (Launch (last_or f (function_ (base c))) false (suspend_ (base c)) (match f with Some _ => tags_or tags (instanceTags (base c)) | None => instanceTags (base c) end))
               (scope_ c) (log_file (base c))]
| M_show_debug : forall i, means c t (LDebug i DShow) [ODebug i (DReq ConfigGet false [])]
| M_break : forall i l pre bs, resolution t i l pre -> breakpoints t l bs -> means c t (LDebug i (DBreak l)) (pre ++ [ODebug i (DReq ConfigUnion true bs)])
| M_deletebreak : forall i l pre bs, resolution t i l pre -> breakpoints t l bs -> means c t (LDebug i (DDeleteBreak l)) (pre ++ [ODebug i (DReq ConfigComplement false bs)])
| M_detach : forall i, means c t (LDebug i DDetach) [ODebug i (DReq ConfigSet false [])]
| M_backtrace : forall i, means c t (LDebug i DBacktrace) [ODebug i (DReq ReadStack false []); ODownload (t_module t) Sink]
| M_dumptext : forall i, means c t (LDebug i DDumpText) [ODebug i (DReq ConfigGet false []); ODownload (t_module t) Sink]
| M_delete : forall i, means c t (LDelete i) [ODelete i]
| M_export : forall m, means c t (LExport m) [ODownload m Sink]
| M_import : forall n tags, means c t (LImport n tags) [OUpload (Content n) (t_size t n) "" true (tags_or tags (moduleTags (base c)))]
| M_instances : means c t LInstances_ (OInstances :: map OInstanceInfo (t_ids t))
| M_io : forall i, means c t (LIO i) [OConnect i Stdin Stdout]
| M_kill : forall i, means c t (LKill i) (OKill i :: and_wait (base c) i)
| M_modules : means c t LModules_ (OModules :: map OModuleInfo (t_ids t))
| M_pin : forall m tags, means c t (LPin m tags) [OPin m true (tags_or tags (moduleTags (base c)))]
| M_pull : forall m n, t_length t = Some n -> means c t (LPull m) [OUpload (Fetched m) n m true (moduleTags (base c))]
| M_push : forall m, means c t (LPush m) [ODownload m Sink]
| M_repl : forall i, means c t (LREPL i) [OConnect i Typed Shown]
| M_resume : forall i f, means c t (LResume i f) [OResume i (last_or f (function_ (base c))) (scope_ c) (log_file (base c))]
| M_show : forall m, means c t (LShow m) [OModuleInfo m]
| M_snapshot : forall i tags, means c t (LSnapshot i tags) [OSnapshot i true (tags_or tags (moduleTags (base c)))]
| M_status : forall i, means c t (LStatus i) [OInstanceInfo i]
| M_suspend : forall i, means c t (LSuspend i) (OSuspend i :: and_wait (base c) i)
| M_unpin : forall m, means c t (LUnpin m) [OUnpin m]
| M_update : forall i tags T, tags_or tags (instanceTags (base c)) = T -> T <> [] -> means c t (LUpdate i tags) [OUpdate i true T]
| M_wait : forall i, means c t (LWait i) [OWait i]
| M_scope : means c t LScope [OFeatures].

(* The debug commands that need the module's content *)
Definition needs_module (x : lcmd) : Prop :=
  match x with
  | LDebug _ (DBreak l) | LDebug _ (DDeleteBreak l) => exists s, In (Named s) l
  | LDebug _ DBacktrace | LDebug _ DDumpText => True
  | _ => False
  end.
(* The commands that are given up before anything is asked *)
Definition given_up (c : lconfig) (t : told) (x : lcmd) : Prop :=
  match x with
  | LPull _ => t_length t = None
  | LUpdate _ tags => tags_or tags (instanceTags (base c)) = []
  | _ => False
  end.

(* ---- Proofs ---- *)
Lemma arg_spec c arg m : module_arg c arg m -> (is_id arg = true /\ m = Known arg) \/ (is_id arg = false /\ m = Upload (Content arg) (pin_ c) (moduleTags c)).
Proof.
  intros [N|F].
  - left. split; [|reflexivity]. unfold is_id. rewrite (proj2 (contains_false "047" arg)), (proj2 (contains_false "." arg)); [reflexivity| |]; intros H; apply N; [right|left]; exact H.
  - right. split; [|reflexivity]. unfold is_id. destruct F as [F|F]; [apply (contains_spec "047") in F | apply (contains_spec ".") in F]; rewrite F; [reflexivity|]. now rewrite Bool.orb_true_r.
Qed.
Lemma arg_total c arg : exists m, module_arg c arg m.
Proof.
  destruct (contains "047" arg) eqn:A; [|destruct (contains "." arg) eqn:B].
  - eexists. apply A_file. left. now apply (contains_spec "047").
  - eexists. apply A_file. right. now apply (contains_spec ".").
  - eexists. apply A_id. intros [H|H]; [apply (contains_false "047") in A | apply (contains_false ".") in B]; contradiction.
Qed.
Lemma named_spec l : named l = true <-> exists s, In (Named s) l.
Proof.
  unfold named. rewrite existsb_exists. split.
  - intros [[n|s] [I E]]; [discriminate|]. eauto.
  - intros [s I]. exists (Named s). auto.
Qed.
Lemma break_offsets t l bs : breakpoints t l bs -> offsets t l = bs.
Proof. induction 1 as [|n l r B IH|s l r B IH]; [reflexivity| |]; unfold offsets in *; cbn [flat_map app]; now rewrite IH. Qed.
Lemma break_total t l : breakpoints t l (offsets t l).
Proof. induction l as [|[n|s] l IH]; cbn [offsets flat_map app]; [apply B_nil | apply B_offset, IH | apply B_named, IH]. Qed.
Lemma perform_map (g : string -> dcall) (o : string -> op) l :
  (forall x, exists r, methods (method_ (g x)) (args (g x)) = Some (o x, r) /\ tys_eqb r (stores (g x)) = true) -> perform (map g l) = (map o l, true).
Proof.
  intros H. induction l as [|x l IH]; [reflexivity|]. cbn [map perform]. destruct (H x) as [r [-> E]]. rewrite E, IH. reflexivity.
Qed.

(* A command means one thing. *)
Theorem local_meaning_unambiguous : forall c t x ops ops', means c t x ops -> means c t x ops' -> ops = ops'.
Proof.
  intros c t x ops ops' A B.
  assert (U : forall arg m m', module_arg (base c) arg m -> module_arg (base c) arg m' -> m = m').
  { intros arg m m' P Q. destruct P, Q; auto; contradiction. }
  assert (R : forall i l p p', resolution t i l p -> resolution t i l p' -> p = p').
  { intros i l p p' [P1 P2] [Q1 Q2]. destruct (named l) eqn:N.
    - apply named_spec in N. rewrite (P2 N), (Q2 N). reflexivity.
    - assert (M : forall s, ~ In (Named s) l). { intros s I. assert (named l = true) by (apply named_spec; eauto). congruence. } rewrite (P1 M), (Q1 M). reflexivity. }
  inversion A; subst; inversion B; subst; try reflexivity.
  - match goal with P : module_arg _ _ ?m, Q : module_arg _ _ ?m' |- context [?m] => now rewrite (U _ _ _ P Q) end.
  - match goal with P : module_arg _ _ ?m, Q : module_arg _ _ ?m' |- context [?m] => now rewrite (U _ _ _ P Q) end.
  - match goal with P : resolution _ _ _ ?p, Q : resolution _ _ _ ?p', V : breakpoints _ _ ?b, W : breakpoints _ _ ?b' |- ?p ++ [ODebug _ (DReq _ _ ?b)] = ?p' ++ _ =>
      rewrite (R _ _ _ _ P Q), <- (break_offsets _ _ _ V), <- (break_offsets _ _ _ W); reflexivity end.
  - match goal with P : resolution _ _ _ ?p, Q : resolution _ _ _ ?p', V : breakpoints _ _ ?b, W : breakpoints _ _ ?b' |- ?p ++ [ODebug _ (DReq _ _ ?b)] = ?p' ++ _ =>
      rewrite (R _ _ _ _ P Q), <- (break_offsets _ _ _ V), <- (break_offsets _ _ _ W); reflexivity end.
  - congruence.
Qed.

Ltac one := eexists; split; [reflexivity|].
Lemma local_gen dl c t x : dl = "DownloadModule" \/ ~ needs_module x -> ~ given_up c t x -> exists ops, local_ dl c t x = Some (ops, true) /\ means c t x ops.
Proof.
  intros D G. unfold local_. destruct x as [arg f|i d|i|m|n tags| |i|i|arg f tags| |m tags|m|m|i|i f|m|i tags|i|i|m|i tags|i|]; cbn [calls_ option_map].
  - destruct (arg_total (base c) arg) as [m M]. pose proof (arg_spec _ _ _ M) as [[-> ->]|[-> ->]]; one; apply M_call; exact M.
  - assert (RES : forall l, dl = "DownloadModule" \/ ~ needs_module (LDebug i (DBreak l)) ->
      exists pre, resolution t i l pre /\ forall k, perform (parseBreakpoints dl t i l ++ [k]) = (pre ++ fst (perform [k]), snd (perform [k]))).
    { intros l Dl. unfold parseBreakpoints. destruct (named l) eqn:N.
      - assert (E := proj1 (named_spec l) N). destruct Dl as [Dl|Dl]; [rewrite Dl|destruct (Dl E)].
        exists [ODebug i (DReq ConfigGet false []); ODownload (t_module t) Sink]. split; [|reflexivity].
        split; intros H; [destruct E as [s I]; destruct (H s I) | reflexivity].
      - exists []. split; [|intros k; cbn [app]; destruct (perform [k]); reflexivity]. split; [reflexivity|]. intros H. apply named_spec in H. congruence. }
    destruct d as [|l|l| | |]; cbn [debug].
    + one. apply M_show_debug.
    + destruct (RES l D) as [pre [R P]]. rewrite P. one. apply M_break; [exact R | apply break_total].
    + destruct (RES l D) as [pre [R P]]. rewrite P. one. apply M_deletebreak; [exact R | apply break_total].
    + one. apply M_detach.
    + destruct D as [-> | D]; [|destruct (D I)]. one. apply M_backtrace.
    + destruct D as [-> | D]; [|destruct (D I)]. one. apply M_dumptext.
  - one. apply M_delete.
  - one. apply M_export.
  - one. apply M_import.
  - cbn [perform]. cbv beta. rewrite (perform_map getInstanceInfo OInstanceInfo) by (intros y; eexists; split; reflexivity). one. apply M_instances.
  - one. apply M_io.
  - unfold instanceWaiter. exists (OKill i :: and_wait (base c) i). split; [unfold and_wait; destruct (wait_ (base c)); reflexivity | apply M_kill].
  - destruct (arg_total (base c) arg) as [m M]. pose proof (arg_spec _ _ _ M) as [[-> ->]|[-> ->]]; one; apply M_launch; exact M.
  - cbn [perform]. rewrite (perform_map (fun m => DCall "GetModuleInfo" [VStr m] [TStrs]) OModuleInfo) by (intros y; eexists; split; reflexivity). one. apply M_modules.
  - one. apply M_pin.
  - cbn [given_up] in G. destruct (t_length t) as [n|] eqn:E; [|destruct (G eq_refl)]. one. apply M_pull. exact E.
  - one. apply M_push.
  - one. apply M_repl.
  - one. apply M_resume.
  - one. apply M_show.
  - one. apply M_snapshot.
  - one. apply M_status.
  - unfold instanceWaiter. exists (OSuspend i :: and_wait (base c) i). split; [unfold and_wait; destruct (wait_ (base c)); reflexivity | apply M_suspend].
  - one. apply M_unpin.
  - cbn [given_up] in G. change tagsOr with tags_or. destruct (tags_or tags (instanceTags (base c))) as [|a T] eqn:E; [destruct (G eq_refl)|]. one. apply M_update; [exact E | discriminate].
  - one. apply M_wait.
  - one. apply M_scope.
Qed.

(* Every command, except for those debug commands which need the module, asks of the server exactly what it is for, and understands the replies. *)
Theorem local_commands_do_what_they_say : forall c t x, ~ needs_module x -> ~ given_up c t x -> exists ops, local c t x = Some (ops, true) /\ means c t x ops.
Proof. intros c t x N G. apply local_gen; auto. Qed.
(* The others ask for nothing. *)
Theorem local_given_up : forall c t x, given_up c t x <-> local c t x = None.
Proof.
  intros c t x. split.
  - destruct x; cbn [given_up]; try contradiction; unfold local, local_; cbn [calls_]; [intros ->; reflexivity|]. change tagsOr with tags_or. intros ->. reflexivity.
  - unfold local, local_. destruct x; cbn [calls_ given_up option_map]; try discriminate.
    + destruct (t_length t); [discriminate|reflexivity].
    + change tagsOr with tags_or. destruct (tags_or tags (instanceTags (base c))); [reflexivity|discriminate].
Qed.
Print Assumptions local_meaning_unambiguous.
Print Assumptions local_commands_do_what_they_say.
Print Assumptions local_given_up.

(* The backtrace and text dump, and breakpoints at functions or lines, never work: the module is asked for with a method that the daemon doesn't have.
   No breakpoint is set.  They would with the method which export uses. *)
Theorem local_debug_refuted : forall c t x, needs_module x ->
  exists i r, local c t x = Some ([ODebug i r], false) /\ (d_op r = ConfigGet \/ d_op r = ReadStack) /\ forall ops, means c t x ops -> ops <> [ODebug i r].
Proof.
  intros c t x N. destruct x; try destruct N. destruct d; try destruct N.
  - exists inst, (DReq ConfigGet false []). split; [|split; [left; reflexivity|]].
    + unfold local, local_. cbn [calls_ option_map debug]. unfold parseBreakpoints. rewrite (proj2 (named_spec l)) by eauto. reflexivity.
    + intros ops M. inversion M; subst. match goal with P : resolution _ _ _ _ |- _ => destruct P as [_ R] end. rewrite R by eauto. discriminate.
  - exists inst, (DReq ConfigGet false []). split; [|split; [left; reflexivity|]].
    + unfold local, local_. cbn [calls_ option_map debug]. unfold parseBreakpoints. rewrite (proj2 (named_spec l)) by eauto. reflexivity.
    + intros ops M. inversion M; subst. match goal with P : resolution _ _ _ _ |- _ => destruct P as [_ R] end. rewrite R by eauto. discriminate.
  - exists inst, (DReq ReadStack false []). split; [reflexivity|split; [right; reflexivity|]]. intros ops M. inversion M. discriminate.
  - exists inst, (DReq ConfigGet false []). split; [reflexivity|split; [left; reflexivity|]]. intros ops M. inversion M. discriminate.
Qed.
Theorem local_debug_repair : forall c t x, ~ given_up c t x -> exists ops, local_ "DownloadModule" c t x = Some (ops, true) /\ means c t x ops.
Proof. intros c t x G. apply local_gen; auto. Qed.
Print Assumptions local_debug_refuted.
Print Assumptions local_debug_repair.

(* The daemon's methods, as their Go signatures say: parameters and results *)
Definition signatures : list (string * (list ty * list ty)) :=
  [("Call", ([TStr; TStr; TStrs; TStrs; TFD; TFD; TFD; TFD; TBool], [TStr; TInt32; TInt32; TInt32]));
   ("CallFile", ([TFD; TBool; TStrs; TStr; TStrs; TStrs; TFD; TFD; TFD; TFD; TBool], [TStr; TInt32; TInt32; TInt32]));
   ("ConnectInstance", ([TStr; TFD; TFD], [TBool])); ("DebugInstance", ([TStr; TBytes], [TBytes])); ("DeleteInstance", ([TStr], []));
   ("DownloadModule", ([TFD; TStr], [TInt64])); ("GetInstanceInfo", ([TStr], [TInt32; TInt32; TInt32; TStrs])); ("GetModuleInfo", ([TStr], [TStrs]));
   ("GetScope", ([], [TStrs])); ("Launch", ([TStr; TStr; TBool; TStrs; TStrs; TFD; TBool], [TStr]));
   ("LaunchFile", ([TFD; TBool; TStrs; TStr; TBool; TStrs; TStrs; TFD; TBool], [TStr])); ("ListInstances", ([], [TStrs])); ("ListModules", ([], [TStrs]));
   ("PinModule", ([TStr; TStrs], [])); ("ResumeInstance", ([TStr; TStr; TStrs; TFD; TBool], [])); ("Snapshot", ([TStr; TStrs], [TStr]));
   ("UnpinModule", ([TStr], [])); ("UpdateInstance", ([TStr; TBool; TStrs], [])); ("UploadModule", ([TFD; TInt64; TStr; TStrs], [TStr]));
   ("WaitInstance", ([TStr], [TInt32; TInt32; TInt32])); ("Kill", ([TStr], [])); ("Suspend", ([TStr], []))].
(* A method's implementation is reached exactly when the arguments have the types of its parameters. *)
Theorem methods_typed : forall name a r, (exists o, methods name a = Some (o, r)) <-> In (name, (map typeof a, r)) signatures.
Proof.
  intros name a r. split.
  - intros [o H]. unfold methods in H.
    repeat match type of H with
    | context [match ?l with [] => _ | _ :: _ => _ end] => is_var l; destruct l; cbn [map typeof] in *
    | context [match ?v with VStr _ => _ | _ => _ end] => is_var v; destruct v
    | context [if String.eqb name ?s then _ else _] => destruct (String.eqb_spec name s) as [-> | _]
    end; try discriminate H; injection H as <- <-; cbn [map typeof signatures]; unfold signatures; repeat first [left; reflexivity | right].
  - intros H. unfold signatures in H. cbn [In] in H.
    repeat match type of H with _ \/ _ => destruct H as [H|H] end; [..|contradiction];
    injection H as <- E R; subst r;
    repeat match type of E with
    | ?x :: ?y = map typeof ?l => destruct l as [|[] l]; cbn [map typeof] in E; try discriminate E; injection E as E
    | [] = map typeof ?l => destruct l; [clear E|discriminate E]
    end; eexists; reflexivity.
Qed.
Print Assumptions methods_typed.

(* Non-vacuity *)
Definition ex_lconf : lconfig := LConfig (Config true ["m"] true "main" "" ["i"; "j"] false true) ["scope"].
Definition ex_told : told := Told ["x"; "y"] "key" (fun _ => [7%Z]) (fun _ => 9%Z) (Some 5%Z).
Example local_call_file : local ex_lconf ex_told (LCall "./a" (Some "f")) =
  Some ([OCall (Upload (Content "./a") true ["m"]) (Launch "f" true false ["i"; "j"]) ["scope"] Quit Stdin Stdout (Some DebugLog)], true).
Proof. reflexivity. Qed.
Example local_instances : local ex_lconf ex_told LInstances_ = Some ([OInstances; OInstanceInfo "x"; OInstanceInfo "y"], true).
Proof. reflexivity. Qed.
Example local_break : local ex_lconf ex_told (LDebug "x" (DBreak [Offset 3; Offset 4])) = Some ([ODebug "x" (DReq ConfigUnion true [3%Z; 4%Z])], true) /\
  local ex_lconf ex_told (LDebug "x" (DBreak [Offset 3; Named "f"])) = Some ([ODebug "x" (DReq ConfigGet false [])], false) /\
  local_ "DownloadModule" ex_lconf ex_told (LDebug "x" (DBreak [Offset 3; Named "f"])) =
    Some ([ODebug "x" (DReq ConfigGet false []); ODownload "key" Sink; ODebug "x" (DReq ConfigUnion true [3%Z; 7%Z])], true).
Proof. repeat split. Qed.
Example local_kill : local ex_lconf ex_told (LKill "x") = Some ([OKill "x"; OWait "x"], true). Proof. reflexivity. Qed.
