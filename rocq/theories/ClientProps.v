(* ClientProps.v: the client's commands do on the server what they say (C133), and the client tells the ending of a call (C134). *)
From Verif Require Import Client.
From Verif Require Import RoutesProps.
From Coq Require Import Lia.

(* ---- Specification: what a command is for ---- *)
Definition last_or (f : option string) (dflt : string) : string := match f with Some f => f | None => dflt end.
Definition tags_or (l dflt : list string) : list string := match l with [] => dflt | _ => l end.
Definition when (b : bool) (l : list string) : list string := if b then l else [].
(* A module argument denotes a module that the server knows, one of an IPFS path, or a local file (given here by its hash). *)
Inductive denotes : modarg -> string -> bool -> Prop :=
| D_id : forall arg key, ~ (exists a b, arg = a +++ "/" +++ b) -> ~ (exists a b, arg = a +++ "." +++ b) -> denotes (MArg arg key) "id" true
| D_ipfs : forall x key, denotes (MArg ("/ipfs/" +++ x) key) "ipfs" true
| D_file : forall arg key, (exists a b, arg = a +++ "/" +++ b) \/ (exists a b, arg = a +++ "." +++ b) -> ~ (exists x, arg = "/ipfs/" +++ x) -> denotes (MArg arg key) "file" true.

Inductive purpose (c : config) (ipfs : nat) : cmd -> served -> Prop :=
| P_call_id : forall arg key f, denotes (MArg arg key) "id" true ->
    purpose c ipfs (CCall (MArg arg key) f) (SAction (TKnownModule arg) (ACall false false (last_or f (function_ c)) [] (instanceTags c)) false)
| P_call_ipfs : forall arg key f, denotes (MArg arg key) "ipfs" true ->
    purpose c ipfs (CCall (MArg arg key) f)
      (SAction (TSource ipfs arg) (ACall false (pin_ c) (last_or f (function_ c)) (when (pin_ c) (moduleTags c)) (instanceTags c)) false)
| P_call_file : forall arg key f, denotes (MArg arg key) "file" true ->
    purpose c ipfs (CCall (MArg arg key) f)
      (SAction (TKnownModule key) (ACall true (pin_ c) (last_or f (function_ c)) (when (pin_ c) (moduleTags c)) (instanceTags c)) true)
| P_launch_id : forall arg key f tags, denotes (MArg arg key) "id" true ->
    purpose c ipfs (CLaunch (MArg arg key) f tags)
      (SAction (TKnownModule arg) (ALaunch false (last_or f (function_ c)) (instance_ c) [] (match f with Some _ => tags_or tags (instanceTags c) | None => instanceTags c end) (suspend_ c)) false)
| P_launch_ipfs : forall arg key f tags, denotes (MArg arg key) "ipfs" true ->
    purpose c ipfs (CLaunch (MArg arg key) f tags)
      (SAction (TSource ipfs arg) (ALaunch (pin_ c) (last_or f (function_ c)) (instance_ c) (when (pin_ c) (moduleTags c))
         (match f with Some _ => tags_or tags (instanceTags c) | None => instanceTags c end) (suspend_ c)) false)
| P_launch_file : forall arg key f tags, denotes (MArg arg key) "file" true ->
    purpose c ipfs (CLaunch (MArg arg key) f tags)
      (SAction (TKnownModule key) (ALaunch (pin_ c) (last_or f (function_ c)) (instance_ c) (when (pin_ c) (moduleTags c))
         (match f with Some _ => tags_or tags (instanceTags c) | None => instanceTags c end) (suspend_ c)) true)
| P_debug : forall i, purpose c ipfs (CDebug i) (SAction (TInstance i) ADebug false)
| P_delete : forall i, purpose c ipfs (CDelete i) (SAction (TInstance i) ADelete false)
| P_export : forall m, purpose c ipfs (CExport m) (SAction (TKnownModule m) ADownload false)
| P_import : forall k tags, purpose c ipfs (CImport k tags) (SAction (TKnownModule k) (AUpload (tags_or tags (moduleTags c))) true)
| P_instances : purpose c ipfs CInstances (SList LInstances)
| P_io : forall i, purpose c ipfs (CIO i) (SAction (TInstance i) (AIO false) false)
| P_kill : forall i, purpose c ipfs (CKill i) (SAction (TInstance i) (AKill (wait_ c)) false)
| P_modules : purpose c ipfs CModules (SList LModules)
| P_pin : forall m tags, purpose c ipfs (CPin m tags) (SAction (TKnownModule m) (APin (tags_or tags (moduleTags c))) false)
| P_repl : forall i, purpose c ipfs (CREPL i) (SAction (TInstance i) (AIO true) false)
| P_resume : forall i, purpose c ipfs (CResume i) (SAction (TInstance i) (AResume "") false)
| P_show : forall m, purpose c ipfs (CShow m) (SAction (TKnownModule m) AKnown false)
| P_snapshot : forall i tags, purpose c ipfs (CSnapshot i tags) (SAction (TInstance i) (ASnapshot (tags_or tags (moduleTags c))) false)
| P_status : forall i, purpose c ipfs (CStatus i) (SAction (TInstance i) AInfo false)
| P_suspend : forall i, purpose c ipfs (CSuspend i) (SAction (TInstance i) (ASuspend (wait_ c)) false)
| P_unpin : forall m, purpose c ipfs (CUnpin m) (SAction (TKnownModule m) AUnpin false)
| P_update : forall i tags, purpose c ipfs (CUpdate i tags) (SAction (TInstance i) AUpdate false)
| P_wait : forall i, purpose c ipfs (CWait i) (SAction (TInstance i) AWait false).

(* The server knows the module's id as such, i.e. it is a name, and no source has been configured with a name beneath the ids. *)
Definition module_id (srcs : list (string * nat)) (k : string) : Prop := k <> "" /\ no_slash k /\ forall s, ~ In ("/sha256/" +++ k, s) srcs.
Definition valid_function (f : string) : Prop := f = "" \/ function_ok f = true.
(* The arguments are such that the server can make sense of them. *)
Definition sensible (srcs : list (string * nat)) (c : config) (x : cmd) : Prop :=
  match x with
  | CCall (MArg arg key) f | CLaunch (MArg arg key) f _ =>
      valid_function (last_or f (function_ c)) /\ module_id srcs key /\ (denotes (MArg arg key) "id" true -> module_id srcs arg) /\
      (forall x, arg = "/ipfs/" +++ x -> x <> "") 
  | CExport k | CImport k _ | CPin k _ | CShow k | CUnpin k => module_id srcs k
  | CDebug i | CDelete i | CIO i | CKill i | CREPL i | CResume i | CSnapshot i _ | CStatus i | CSuspend i | CUpdate i _ | CWait i => i <> ""
  | CInstances | CModules => True
  end.
(* The server's IPFS source, with no sources beneath it *)
Definition has_ipfs (srcs : list (string * nat)) (s : nat) : Prop := In ("/ipfs", s) srcs /\ forall rel s', In (rel, s') srcs -> forall y, rel <> "/ipfs/" +++ y.
(* The commands that don't work, see below *)
Definition broken (x : cmd) : Prop :=
  match x with CDebug _ | CUpdate _ _ => True | CLaunch m _ _ => denotes m "ipfs" true | _ => False end.

(* ---- Queries ---- *)
Lemma vals_app a b k : vals (a ++ b) k = vals a k ++ vals b k.
Proof. unfold vals. now rewrite filter_app, map_app. Qed.
Lemma del_app a b k : del (a ++ b) k = del a k ++ del b k.
Proof. unfold del. now rewrite filter_app. Qed.
Lemma vals_add k vs k' : vals (add k vs) k' = if String.eqb k k' then vs else [].
Proof. induction vs as [|v vs IH]; cbn; [now destruct (String.eqb k k')|]. unfold vals, add in *. cbn. destruct (String.eqb k k'); cbn; now rewrite IH. Qed.
Lemma del_add k vs k' : del (add k vs) k' = if String.eqb k k' then [] else add k vs.
Proof. induction vs as [|v vs IH]; cbn; [now destruct (String.eqb k k')|]. unfold del, add in *. cbn. destruct (String.eqb k k'); cbn; now rewrite IH. Qed.
Lemma pop_app a b x : popAction (a ++ b) x = let r := popAction a x in if fst r then (true, snd r ++ b) else let s := popAction b x in (fst s, a ++ snd s).
Proof.
  induction a as [|p a IH]; cbn [app popAction fst snd]; [now destruct (popAction b x)|].
  destruct (String.eqb (fst p) "action" && String.eqb (snd p) x); [reflexivity|]. rewrite IH. cbn. destruct (fst (popAction a x)); reflexivity.
Qed.
Lemma pop_add k vs x : String.eqb k "action" = false -> popAction (add k vs) x = (false, add k vs).
Proof. intros E. induction vs as [|v vs IH]; [reflexivity|]. cbn [add map popAction fst snd]. rewrite E. cbn [andb]. unfold add in IH. now rewrite IH. Qed.
Definition opt (v : string) : list string := if String.eqb v "" then [] else [v].
Lemma set_add k v : set_ k v = add k (opt v). Proof. unfold set_, opt. now destruct (String.eqb v ""). Qed.
Definition optlog (b : bool) : list string := if b then ["*"] else [].
Lemma log_add c : log_ c = add "log" (optlog (debugLog c)). Proof. unfold log_, optlog. now destruct (debugLog c). Qed.
Lemma when_add (b : bool) k l : (if b then add k l else []) = add k (when b l). Proof. now destruct b. Qed.
Lemma opt_cases v : opt v = [] /\ v = "" \/ opt v = [v] /\ String.eqb v "" = false.
Proof. unfold opt. destruct (String.eqb_spec v ""); auto. Qed.
Ltac q1 := repeat first [rewrite vals_app | rewrite del_app | rewrite vals_add | rewrite del_add]; cbn [String.eqb Ascii.eqb Bool.eqb app]; rewrite ?app_nil_r.
Ltac q := repeat (progress q1).

Lemma callParams_ok f tags b k : valid_function f -> callParams (add "function" (opt f) ++ add "instance.tag" tags ++ add "log" (optlog b)) k = k f tags.
Proof.
  intros V. unfold callParams, popFunction, popOptionalLastParam, popOptionalParams, popOptionalLastLogParam, popOptionalLastParam. q.
  destruct (opt_cases f) as [[-> ->]|[-> N]]; cbn [String.eqb negb andb]; q.
  - destruct b; cbn; reflexivity.
  - rewrite N. destruct V as [->|V]; [discriminate|]. rewrite V. cbn [negb andb]. q. destruct b; cbn; reflexivity.
Qed.
Lemma launchParams_ok f i tags b k : valid_function f ->
  launchParams (add "function" (opt f) ++ add "instance" (opt i) ++ add "instance.tag" tags ++ add "log" (optlog b)) k = k f i tags.
Proof.
  intros V. unfold launchParams, popFunction, popOptionalLastParam, popOptionalParams, popOptionalLastLogParam, popOptionalLastParam. q.
  destruct (opt_cases f) as [[-> ->]|[-> N]]; destruct (opt_cases i) as [[-> ->]|[-> M]]; cbn [String.eqb negb andb]; q;
    try (destruct V as [->|V]; [discriminate|]; rewrite N, V; cbn [negb andb]); q; destruct b; cbn; reflexivity.
Qed.
Fixpoint pop1 (x : string) (l : list string) : bool * list string :=
  match l with [] => (false, []) | a :: t => if String.eqb a x then (true, t) else let r := pop1 x t in (fst r, a :: snd r) end.
Lemma pop_action l x : popAction (add "action" l) x = (fst (pop1 x l), add "action" (snd (pop1 x l))).
Proof.
  induction l as [|a l IH]; [reflexivity|]. cbn [add map popAction pop1 fst snd]. change (map (fun v => ("action", v)) l) with (add "action" l).
  rewrite String.eqb_refl. cbn [andb]. destruct (String.eqb a x); [reflexivity|]. rewrite IH. reflexivity.
Qed.
Ltac pp := repeat first [rewrite pop_app | rewrite pop_action | rewrite pop_add by reflexivity]; cbn [pop1 fst snd String.eqb Ascii.eqb Bool.eqb app].

Lemma postKnown_call f T b : valid_function f ->
  handlePostKnownModule (add "action" ["call"] ++ add "function" (opt f) ++ add "instance.tag" T ++ add "log" (optlog b)) = do_ (ACall false false f [] T).
Proof.
  intros V. unfold handlePostKnownModule. q. pp. unfold popLastParam. q. rewrite callParams_ok by exact V. reflexivity.
Qed.
Lemma postKnown_launch f i T b s : valid_function f ->
  handlePostKnownModule (add "action" ("launch" :: when s ["suspend"]) ++ add "function" (opt f) ++ add "instance" (opt i) ++ add "instance.tag" T ++ add "log" (optlog b)) =
  do_ (ALaunch false f i [] T s).
Proof.
  intros V. unfold handlePostKnownModule. q. pp. destruct s; cbn [when pop1 fst snd String.eqb Ascii.eqb Bool.eqb]; unfold popLastParam; q; rewrite launchParams_ok by exact V; reflexivity.
Qed.
Lemma getKnown_call f T b p M : valid_function f ->
  handleGetKnownModule (add "action" ("call" :: when p ["pin"]) ++ add "function" (opt f) ++ add "instance.tag" T ++ add "log" (optlog b) ++ add "module.tag" (when p M)) =
  do_ (ACall true p f (when p M) T).
Proof.
  intros V. unfold handleGetKnownModule. pp. destruct p; cbn [when pop1 fst snd String.eqb Ascii.eqb Bool.eqb popModTags]; unfold popOptionalParams, has, popLastParam; q.
  - rewrite callParams_ok by exact V. reflexivity.
  - change (add "module.tag" []) with (@nil (string * string)). rewrite ?app_nil_r. rewrite callParams_ok by exact V. reflexivity.
Qed.
Lemma postSource_call f T b p M : valid_function f ->
  handlePostModuleSource (add "action" ("call" :: when p ["pin"]) ++ add "function" (opt f) ++ add "instance.tag" T ++ add "log" (optlog b) ++ add "module.tag" (when p M)) =
  do_ (ACall false p f (when p M) T).
Proof.
  intros V. unfold handlePostModuleSource. pp. destruct p; cbn [when pop1 fst snd String.eqb Ascii.eqb Bool.eqb popModTags]; unfold popOptionalParams, has; q; pp; unfold popLastParam; q.
  - rewrite callParams_ok by exact V. reflexivity.
  - change (add "module.tag" []) with (@nil (string * string)). rewrite ?app_nil_r. rewrite callParams_ok by exact V. reflexivity.
Qed.
Lemma putKnown_launch f i T b p s M : valid_function f ->
  handlePutKnownModule (add "action" ("launch" :: when s ["suspend"] ++ when p ["pin"]) ++ add "function" (opt f) ++ add "instance" (opt i) ++ add "instance.tag" T ++ add "log" (optlog b) ++ add "module.tag" (when p M)) =
  do_ (ALaunch p f i (when p M) T s).
Proof.
  intros V. unfold handlePutKnownModule. pp.
  destruct p, s; cbn [when pop1 fst snd String.eqb Ascii.eqb Bool.eqb popModTags app]; pp; unfold popOptionalParams, has, popLastParam; q; 
    try (change (add "module.tag" []) with (@nil (string * string)); rewrite ?app_nil_r); rewrite launchParams_ok by exact V; reflexivity.
Qed.
Lemma putKnown_pin M : handlePutKnownModule (add "action" ["pin"] ++ add "module.tag" M) = do_ (AUpload M).
Proof. unfold handlePutKnownModule. pp. cbn [popModTags]. pp. unfold popOptionalParams, has. q. reflexivity. Qed.
Lemma postKnown_pin M : handlePostKnownModule (add "action" ["pin"] ++ add "module.tag" M) = do_ (APin M).
Proof. unfold handlePostKnownModule. q. pp. unfold popLastParam, popOptionalParams. q. reflexivity. Qed.
Lemma postInstance_snapshot M : handlePostInstance (add "action" ["snapshot"] ++ add "module.tag" M) = do_ (ASnapshot M).
Proof. unfold handlePostInstance, popOptionalParams. q. reflexivity. Qed.

(* ---- Module arguments ---- *)
Lemma contains_spec c s : contains c s = true <-> exists a b, s = a +++ String c "" +++ b.
Proof.
  induction s as [|x s IH]; cbn [contains].
  - split; [discriminate|]. intros [[|? ?] [b H]]; discriminate.
  - rewrite Bool.orb_true_iff, IH. split.
    + intros [E|[a [b ->]]]; [apply Ascii.eqb_eq in E as ->; exists "", s; reflexivity | exists (String x a), b; reflexivity].
    + intros [[|y a] [b H]]; cbn in H; injection H as -> H; [left; apply Ascii.eqb_refl | right; subst; exists a, b; reflexivity].
Qed.
Lemma contains_false c s : contains c s = false <-> ~ exists a b, s = a +++ String c "" +++ b.
Proof. rewrite <- contains_spec. destruct (contains c s); split; congruence. Qed.
Lemma ipfs_spec s : is_ipfs s = true <-> exists x, s = "/ipfs/" +++ x.
Proof.
  unfold is_ipfs. destruct (strip "/ipfs/" s) as [x|] eqn:E.
  - apply strip_spec in E. split; eauto.
  - split; [discriminate|]. intros [x H]. apply strip_spec in H. congruence.
Qed.
Lemma slash_ipfs x : is_id ("/ipfs/" +++ x) = false. Proof. reflexivity. Qed.
Lemma id_is arg key : denotes (MArg arg key) "id" true -> is_id arg = true.
Proof. inversion 1; subst. unfold is_id. rewrite (proj2 (contains_false "047" arg) H2), (proj2 (contains_false "." arg) H3). reflexivity. Qed.
Lemma file_is arg key : denotes (MArg arg key) "file" true -> is_id arg = false /\ is_ipfs arg = false.
Proof.
  inversion 1 as [| |? ? A B]; subst. split.
  - unfold is_id. destruct A as [A|A]; [apply (contains_spec "047") in A | apply (contains_spec ".") in A]; rewrite A; [reflexivity|]. now rewrite Bool.orb_true_r.
  - destruct (is_ipfs arg) eqn:E; [|reflexivity]. apply ipfs_spec in E. contradiction.
Qed.
Lemma ipfs_is arg key : denotes (MArg arg key) "ipfs" true -> exists x, arg = "/ipfs/" +++ x.
Proof. inversion 1; subst. eexists; reflexivity. Qed.
(* Every argument denotes exactly one of the kinds. *)
Theorem arguments_unambiguous : forall m, exists k, denotes m k true /\ forall k', denotes m k' true -> k' = k.
Proof.
  intros [arg key]. assert (E : exists k, denotes (MArg arg key) k true).
  { destruct (is_ipfs arg) eqn:I.
    - apply ipfs_spec in I as [x ->]. eexists. apply D_ipfs.
    - destruct (contains "047" arg) eqn:A; [|destruct (contains "." arg) eqn:B].
      + exists "file". apply D_file; [left; now apply (contains_spec "047")|]. rewrite <- ipfs_spec. congruence.
      + exists "file". apply D_file; [right; now apply (contains_spec ".")|]. rewrite <- ipfs_spec. congruence.
      + exists "id". apply D_id; [now apply (contains_false "047") | now apply (contains_false ".")]. }
  destruct E as [k D]. exists k. split; [exact D|]. intros k' D'.
  assert (K : forall k, denotes (MArg arg key) k true -> k = "id" /\ is_id arg = true \/ k = "ipfs" /\ is_ipfs arg = true \/ k = "file" /\ is_id arg = false /\ is_ipfs arg = false).
  { intros k0 D0. pose proof D0 as D1. inversion D0; subst; [left; split; [reflexivity|]; now apply (id_is arg key)
    | right; left; split; [reflexivity|]; apply ipfs_spec; eexists; reflexivity | right; right; split; [reflexivity|]; now apply (file_is arg key)]. }
  assert (X : is_id arg = true -> is_ipfs arg = false).
  { intros A. destruct (is_ipfs arg) eqn:B; [|reflexivity]. apply ipfs_spec in B as [x ->]. discriminate. }
  destruct (K _ D) as [[-> A]|[[-> A]|[-> [A B]]]]; destruct (K _ D') as [[-> A']|[[-> A']|[-> [A' B']]]]; try reflexivity; try specialize (X A); try specialize (X A'); congruence.
Qed.
Print Assumptions arguments_unambiguous.

(* ---- C133 ---- *)
Lemma source_reached p srcs m s x : newMux p srcs = Ok m -> plain srcs -> has_ipfs srcs s -> x <> "" ->
  locate m (p +++ "/gate-0/module/ipfs/" +++ x) = TSource s ("/ipfs/" +++ x).
Proof.
  intros E P [I B] X. refine (proj1 (requests_reach_what_they_name p srcs m _ E P) _ _ (N_source_module p srcs "/ipfs" s x I X) _).
  intros d t N. remember (p +++ "/gate-0/module" +++ "/ipfs" +++ "/" +++ x) as path eqn:Q.
  assert (L : forall rel y, (rel +++ "/" +++ y = "/ipfs/" +++ x) -> (forall z, rel <> "/ipfs/" +++ z) -> (String.length rel <= 5)%nat).
  { intros rel y H Z. do 6 (destruct rel as [|? rel]; [cbn; lia|]; cbn [String.append] in H; injection H as ? H). subst. destruct (Z rel). reflexivity. }
  destruct N; rewrite ?slen_app in *; cbn [String.length] in *; try lia; apply sapp_head in Q; cbn [String.append] in Q; try discriminate.
  - repeat (injection Q as Q). destruct (B _ _ H x). cbn [String.append]. exact Q.
  - repeat (injection Q as Q). specialize (L rel ""). cbn [String.append] in L. specialize (L Q (B _ _ H)). lia.
  - repeat (injection Q as Q). specialize (L rel x0). cbn [String.append] in L. specialize (L Q (B _ _ H)). lia.
Qed.

Lemma known_reached p srcs m k : newMux p srcs = Ok m -> plain srcs -> module_id srcs k -> locate m (p +++ "/gate-0/module/sha256/" +++ k) = TKnownModule k.
Proof. intros E P [A [B C]]. now apply (known_modules_reached p srcs). Qed.
Lemma inst_list_reached p srcs m : newMux p srcs = Ok m -> plain srcs -> locate m (p +++ "/gate-0/instance/") = TInstances.
Proof.
  intros E P. refine (proj1 (requests_reach_what_they_name p srcs m _ E P) _ _ (N_instance_list p srcs) _).
  intros d t N. remember (p +++ "/gate-0/instance/") as path eqn:Q. destruct N; rewrite ?slen_app in *; cbn [String.length] in *; try lia;
    apply sapp_head in Q; cbn [String.append] in Q; try discriminate.
Qed.
Lemma known_list_reached p srcs m : newMux p srcs = Ok m -> plain srcs -> locate m (p +++ "/gate-0/module/sha256/") = TKnownModules.
Proof.
  intros E P. refine (proj1 (requests_reach_what_they_name p srcs m _ E P) _ _ (N_known_list p srcs) _).
  intros d t N. pose proof (names_entry _ _ _ _ _ _ E N) as [h [I [A [T NT]]]]. destruct (applies_prefix _ _ A) as [x PX].
  rewrite PX, slen_app. lia.
Qed.

Lemma respond_act m p r t a e : locate m (p +++ path r) = t -> serve t (method r) (params r) = act_ e (params r) -> handle e (params r) = do_ a ->
  content_check r a (String.eqb (method r) "PUT") (is_source t) = true -> respond m p r = SAction t a (match body r with Wasm => true | _ => false end).
Proof. intros L S H C. unfold respond. rewrite L, S. cbn [act_]. rewrite H. unfold do_. now rewrite C. Qed.
Lemma respond_list m p r t l : locate m (p +++ path r) = t -> serve t (method r) (params r) = Reply None None None (Some l) None ->
  no_ctype r && no_content r && accepts r "application/json" = true -> respond m p r = SList l.
Proof. intros L S C. unfold respond. rewrite L, S. cbv zeta. now rewrite C. Qed.
Ltac act t a e L H := match goal with |- purpose _ _ _ (respond ?m ?p ?r) => rewrite (respond_act m p r t a e L eq_refl H eq_refl) end.

(* Each command has the server do what the command is for, on the module or instance that it names. *)
Theorem remote_commands_do_what_they_say : forall p srcs m ipfs c x r, newMux p srcs = Ok m -> plain srcs -> has_ipfs srcs ipfs ->
  sensible srcs c x -> ~ broken x -> remote c x = Some r -> purpose c ipfs x (respond m p r).
Proof.
  intros p srcs m ipfs c x r E P HI S NB R.
  assert (KN := fun k => known_reached p srcs m k E P). assert (IN := fun k => instances_reached p srcs m k E P).
  destruct x as [[arg key] f|i|i|k|k tags| |i|i|[arg key] f tags| |k tags|i|i|k|i tags|i|i|k|i tags|i];
    cbn [remote] in R; try (injection R as <-); cbn [sensible broken] in *; try (destruct (NB I)).
  - (* call *) destruct S as [V [K [A X]]]. unfold call. rewrite set_add, log_add, !when_add. change (functionOr f c) with (last_or f (function_ c)).
    destruct (arguments_unambiguous (MArg arg key)) as [k [D U]]. inversion D; subst.
    + rewrite (id_is _ _ D). change (add "module.tag" (when false (moduleTags c))) with (@nil (string * string)). rewrite app_nil_r.
      act (TKnownModule arg) (ACall false false (last_or f (function_ c)) [] (instanceTags c)) PostKnown (KN arg (A D)) (postKnown_call _ (instanceTags c) (debugLog c) V).
      apply P_call_id. exact D.
    + match goal with |- context [is_id ?z] => change (is_id z) with false end. cbv iota.
      match goal with |- context [is_ipfs ?z] => change (is_ipfs z) with true end. cbv iota.
      act (TSource ipfs ("/ipfs/" +++ x)) (ACall false (pin_ c) (last_or f (function_ c)) (when (pin_ c) (moduleTags c)) (instanceTags c)) PostSource
        (source_reached p srcs m ipfs x E P HI (X _ eq_refl)) (postSource_call _ (instanceTags c) (debugLog c) (pin_ c) (moduleTags c) V).
      apply P_call_ipfs. exact D.
    + destruct (file_is _ _ D) as [-> ->].
      act (TKnownModule key) (ACall true (pin_ c) (last_or f (function_ c)) (when (pin_ c) (moduleTags c)) (instanceTags c)) GetKnown
        (KN key K) (getKnown_call _ (instanceTags c) (debugLog c) (pin_ c) (moduleTags c) V).
      apply P_call_file. exact D.
  - (* delete *) act (TInstance i) ADelete PostInstance (IN i S) (eq_refl (do_ ADelete)). apply P_delete.
  - (* export *) act (TKnownModule k) ADownload GetKnown (KN k S) (eq_refl (do_ ADownload)). apply P_export.
  - (* import *) act (TKnownModule k) (AUpload (tags_or tags (moduleTags c))) PutKnown (KN k S) (putKnown_pin (tags_or tags (moduleTags c))). apply P_import.
  - (* instances *) rewrite (respond_list m p (post PathInstances []) TInstances LInstances (inst_list_reached p srcs m E P) eq_refl eq_refl). apply P_instances.
  - (* io *) act (TInstance i) (AIO false) PostInstance (IN i S) (eq_refl (do_ (AIO false))). apply P_io.
  - (* kill *) pose proof (P_kill c ipfs i) as H. unfold waiter. destruct (wait_ c).
    + act (TInstance i) (AKill true) PostInstance (IN i S) (eq_refl (do_ (AKill true))). exact H.
    + act (TInstance i) (AKill false) PostInstance (IN i S) (eq_refl (do_ (AKill false))). exact H.
  - (* launch *) destruct S as [V [K [A X]]]. unfold launch. rewrite !set_add, log_add, !when_add. change (functionOr f c) with (last_or f (function_ c)).
    change tagsOr with tags_or. set (T := match f with Some _ => tags_or tags (instanceTags c) | None => instanceTags c end).
    destruct (arguments_unambiguous (MArg arg key)) as [k [D U]]. inversion D; subst.
    + rewrite (id_is _ _ D). change (if false then ["pin"] else []) with (@nil string). change (add "module.tag" (when false (moduleTags c))) with (@nil (string * string)). rewrite !app_nil_r.
      act (TKnownModule arg) (ALaunch false (last_or f (function_ c)) (instance_ c) [] T (suspend_ c)) PostKnown (KN arg (A D)) (postKnown_launch _ (instance_ c) T (debugLog c) (suspend_ c) V).
      apply P_launch_id. exact D.
    + destruct (NB D).
    + destruct (file_is _ _ D) as [-> ->].
      act (TKnownModule key) (ALaunch (pin_ c) (last_or f (function_ c)) (instance_ c) (when (pin_ c) (moduleTags c)) T (suspend_ c)) PutKnown (KN key K)
        (putKnown_launch _ (instance_ c) T (debugLog c) (pin_ c) (suspend_ c) (moduleTags c) V).
      apply P_launch_file. exact D.
  - (* modules *) rewrite (respond_list m p (post PathKnownModules []) TKnownModules LModules (known_list_reached p srcs m E P) eq_refl eq_refl). apply P_modules.
  - (* pin *) act (TKnownModule k) (APin (tags_or tags (moduleTags c))) PostKnown (KN k S) (postKnown_pin (tags_or tags (moduleTags c))). apply P_pin.
  - (* repl *) act (TInstance i) (AIO true) GetInstance (IN i S) (eq_refl (do_ (AIO true))). apply P_repl.
  - (* resume *) rewrite log_add. pose proof (P_resume c ipfs i) as H. destruct (debugLog c); act (TInstance i) (AResume "") PostInstance (IN i S) (eq_refl (do_ (AResume ""))); exact H.
  - (* show *) act (TKnownModule k) AKnown PostKnown (KN k S) (eq_refl (do_ AKnown)). apply P_show.
  - (* snapshot *) act (TInstance i) (ASnapshot (tags_or tags (moduleTags c))) PostInstance (IN i S) (postInstance_snapshot (tags_or tags (moduleTags c))). apply P_snapshot.
  - (* status *) act (TInstance i) AInfo PostInstance (IN i S) (eq_refl (do_ AInfo)). apply P_status.
  - (* suspend *) pose proof (P_suspend c ipfs i) as H. unfold waiter. destruct (wait_ c).
    + act (TInstance i) (ASuspend true) PostInstance (IN i S) (eq_refl (do_ (ASuspend true))). exact H.
    + act (TInstance i) (ASuspend false) PostInstance (IN i S) (eq_refl (do_ (ASuspend false))). exact H.
  - (* unpin *) act (TKnownModule k) AUnpin PostKnown (KN k S) (eq_refl (do_ AUnpin)). apply P_unpin.
  - (* wait *) act (TInstance i) AWait PostInstance (IN i S) (eq_refl (do_ AWait)). apply P_wait.
Qed.
Print Assumptions remote_commands_do_what_they_say.

(* The commands that are broken, on every server:
   - launching from IPFS uses a method which isn't supported on module sources;
   - debug sends a protocol buffer while JSON is expected;
   - update sends a field which the server doesn't know. *)
Theorem remote_launch_from_source_refuted : forall p srcs m ipfs c x key f tags, newMux p srcs = Ok m -> plain srcs -> has_ipfs srcs ipfs -> x <> "" ->
  exists r, remote c (CLaunch (MArg ("/ipfs/" +++ x) key) f tags) = Some r /\ respond m p r = SNothing /\
    status (request m (p +++ path r) (method r) (params r)) = Some 405%Z.
Proof.
  intros p srcs m ipfs c x key f tags E P HI X. eexists. split; [reflexivity|]. pose proof (source_reached p srcs m ipfs x E P HI X) as L.
  assert (PA : path (launch c (MArg ("/ipfs/" +++ x) key) f tags) = "/gate-0/module/ipfs/" +++ x) by reflexivity.
  unfold respond, request. rewrite PA, L. split; reflexivity.
Qed.
Theorem remote_debug_refuted : forall p srcs m c i, newMux p srcs = Ok m -> plain srcs -> i <> "" ->
  exists r, remote c (CDebug i) = Some r /\ respond m p r = SNothing.
Proof.
  intros p srcs m c i E P I. eexists. split; [reflexivity|].
  match goal with |- respond _ _ ?r = _ => assert (PA : path r = "/gate-0/instance/" +++ i) by reflexivity; unfold respond; rewrite PA end.
  rewrite (instances_reached p srcs m i E P I). reflexivity.
Qed.
Theorem remote_update_refuted : forall p srcs m c i tags r, newMux p srcs = Ok m -> plain srcs -> i <> "" -> remote c (CUpdate i tags) = Some r -> respond m p r = SNothing.
Proof.
  intros p srcs m c i tags r E P I R. cbn [remote] in R. destruct (tagsOr tags (instanceTags c)) as [|t l]; [discriminate|]. injection R as <-.
  match goal with |- respond _ _ ?r = _ => assert (PA : path r = "/gate-0/instance/" +++ i) by reflexivity; unfold respond; rewrite PA end.
  rewrite (instances_reached p srcs m i E P I). reflexivity.
Qed.
(* An update would work if the field's name were right, and debug and launch with the right encoding and method. *)
Theorem remote_repairs : forall p srcs m ipfs c i x key f tags, newMux p srcs = Ok m -> plain srcs -> has_ipfs srcs ipfs -> i <> "" -> x <> "" -> valid_function (last_or f (function_ c)) ->
  respond m p (Req "POST" (PathInstances +++ i) (add "action" ["update"]) (Some "application/json") (JSON ["persist"; "tags"]) None false) = SAction (TInstance i) AUpdate false /\
  respond m p (Req "POST" (PathInstances +++ i) (add "action" ["debug"]) (Some "application/json") (JSON ["op"; "config"]) None false) = SAction (TInstance i) ADebug false /\
  let r := launch c (MArg ("/ipfs/" +++ x) key) f tags in
  purpose c ipfs (CLaunch (MArg ("/ipfs/" +++ x) key) f tags) (respond m p (Req "POST" (path r) (params r) (ctype r) (body r) (accept r) (websocket r))).
Proof.
  intros p srcs m ipfs c i x key f tags E P HI I X V. split; [|split].
  - exact (respond_act m p (Req "POST" (PathInstances +++ i) (add "action" ["update"]) (Some "application/json") (JSON ["persist"; "tags"]) None false)
      (TInstance i) AUpdate PostInstance (instances_reached p srcs m i E P I) eq_refl eq_refl eq_refl).
  - exact (respond_act m p (Req "POST" (PathInstances +++ i) (add "action" ["debug"]) (Some "application/json") (JSON ["op"; "config"]) None false)
      (TInstance i) ADebug PostInstance (instances_reached p srcs m i E P I) eq_refl eq_refl eq_refl).
  - unfold launch. rewrite !set_add, log_add, !when_add. change (functionOr f c) with (last_or f (function_ c)).
    change tagsOr with tags_or. set (T := match f with Some _ => tags_or tags (instanceTags c) | None => instanceTags c end).
    match goal with |- context [is_id ?z] => change (is_id z) with false end. cbv iota.
    match goal with |- context [is_ipfs ?z] => change (is_ipfs z) with true end. cbv iota. cbn [path params ctype body accept websocket]. cbv zeta.
    assert (H : handlePostModuleSource (add "action" ("launch" :: when (suspend_ c) ["suspend"] ++ when (pin_ c) ["pin"]) ++ add "function" (opt (last_or f (function_ c))) ++
              add "instance" (opt (instance_ c)) ++ add "instance.tag" T ++ add "log" (optlog (debugLog c)) ++ add "module.tag" (when (pin_ c) (moduleTags c))) =
            do_ (ALaunch (pin_ c) (last_or f (function_ c)) (instance_ c) (when (pin_ c) (moduleTags c)) T (suspend_ c))).
    { unfold handlePostModuleSource. pp. destruct (pin_ c), (suspend_ c); cbn [when pop1 fst snd String.eqb Ascii.eqb Bool.eqb popModTags app]; unfold popOptionalParams, has; q; pp; unfold popLastParam; q;
        try (change (add "module.tag" []) with (@nil (string * string)); rewrite ?app_nil_r); rewrite launchParams_ok by exact V; reflexivity. }
    match goal with |- purpose _ _ _ (respond ?m ?p ?r) => rewrite (respond_act m p r (TSource ipfs ("/ipfs/" +++ x)) (ALaunch (pin_ c) (last_or f (function_ c)) (instance_ c) (when (pin_ c) (moduleTags c)) T (suspend_ c)) PostSource
        (source_reached p srcs m ipfs x E P HI X) eq_refl H eq_refl) end.
    apply P_launch_ipfs. apply D_ipfs.
Qed.
Print Assumptions remote_launch_from_source_refuted.
Print Assumptions remote_debug_refuted.
Print Assumptions remote_update_refuted.
Print Assumptions remote_repairs.
(* The client takes every status code of a successful action for success, except when no I/O connection was made.  (Websockets aren't plain responses.) *)
Theorem client_recognizes_success : forall a connected, success_status a connected <> 101%Z ->
  (client_accepts (success_status a connected) = false <-> a = AIO false /\ connected = false).
Proof.
  intros a b N. split.
  - destruct a as [[] []| [] | | | | | | | |[]| | | | | | | | |], b; cbn in *; intros H; try discriminate; try (destruct (N eq_refl)); auto.
  - intros [-> ->]. reflexivity.
Qed.
Print Assumptions client_recognizes_success.

(* Non-vacuity: a server with an IPFS source and another one, and commands of each kind. *)
Definition ex_srcs : list (string * nat) := [("/ipfs", 0%nat); ("/https/example.net", 1%nat)].
Definition ex_cmux : mux := match newMux "" ex_srcs with Ok m => m | _ => [] end.
Definition ex_conf : config := Config true ["m"] true "" "" ["i"; "j"] false true.
Example ex_cmux_ok : newMux "" ex_srcs = Ok ex_cmux. Proof. reflexivity. Qed.
Example ex_cplain : plain ex_srcs.
Proof.
  intros rel s I t F. assert (is_dir rel = true) by (subst rel; apply is_dir_slash).
  cbn in I. destruct I as [I|[I|[]]]; injection I as <- <-; discriminate.
Qed.
Example ex_has_ipfs : has_ipfs ex_srcs 0.
Proof. split; [left; reflexivity|]. intros rel s' I y. cbn in I. destruct I as [I|[I|[]]]; injection I as <- <-; discriminate. Qed.
Example ex_served : map (fun x => match remote ex_conf x with Some r => respond ex_cmux "" r | None => SNothing end)
    [CCall (MArg "abc" "h") None; CCall (MArg "/ipfs/Qm" "h") (Some "f"); CCall (MArg "a.wasm" "h") None; CLaunch (MArg "./a" "h") (Some "f") ["x"];
     CLaunch (MArg "/ipfs/Qm" "h") None []; CKill "i"; CUpdate "i" ["t"]; CModules; CIO "i"] =
  [SAction (TKnownModule "abc") (ACall false false "" [] ["i"; "j"]) false; SAction (TSource 0 "/ipfs/Qm") (ACall false true "f" ["m"] ["i"; "j"]) false;
   SAction (TKnownModule "h") (ACall true true "" ["m"] ["i"; "j"]) true; SAction (TKnownModule "h") (ALaunch true "f" "" ["m"] ["x"] false) true;
   SNothing; SAction (TInstance "i") (AKill true) false; SNothing; SList LModules; SAction (TInstance "i") (AIO false) false].
Proof. reflexivity. Qed.
Example ex_sensible : sensible ex_srcs ex_conf (CLaunch (MArg "./a" "h") (Some "f") ["x"]) /\ ~ broken (CLaunch (MArg "./a" "h") (Some "f") ["x"]).
Proof.
  split.
  - split; [right; reflexivity|]. split.
    + split; [discriminate|]. split; [intros a b E; destruct a as [|? []]; discriminate|]. intros s I. cbn in I. destruct I as [I|[I|[]]]; injection I as E _; discriminate.
    + split; [|intros x E; discriminate]. intros D. inversion D as [? ? N _| | ]; subst. destruct N. exists ".", "a". reflexivity.
  - intros B. inversion B.
Qed.

(* ---- C134: how a call ends ---- *)
Definition bins (l : list (Websocket.message * bool)) : list Z :=
  flat_map (fun x => match x with (Websocket.Bin b, true) => b | _ => [] end) l.
Definition no_hint (l : list (Websocket.message * bool)) : Prop := ~ In (Websocket.Hint, true) l.
Lemma loop_app a l : (forall m, In m a -> exists d, m = Binary d) ->
  callLoop (a ++ l) = (flat_map (fun m => match m with Binary d => d | _ => [] end) a ++ fst (callLoop l), snd (callLoop l)).
Proof.
  induction a as [|m a IH]; intros H; [cbn; now destruct (callLoop l)|].
  destruct (H m (or_introl eq_refl)) as [d ->]. cbn [app callLoop flat_map]. rewrite IH by (intros x I; apply H; now right). cbn [fst snd]. now rewrite app_assoc.
Qed.
Definition wire1 (x : Websocket.message * bool) : list message :=
  match x with (Websocket.Hint, true) => [Text hint true] | (Websocket.Bin b, true) => [Binary b] | _ => [] end.
Lemma wire_bins l : no_hint l -> (forall m, In m (flat_map wire1 l) -> exists d, m = Binary d) /\
  flat_map (fun m => match m with Binary d => d | _ => [] end) (flat_map wire1 l) = bins l.
Proof.
  induction l as [|[m b] l IH]; intros N; [split; [intros m []|reflexivity]|].
  assert (N' : no_hint l) by (intros I; apply N; now right). destruct (IH N') as [A B]. unfold bins in *.
  destruct m as [|d], b; cbn [flat_map wire1 app].
  - destruct N. now left.
  - auto.
  - split; [intros m [<-|I]; [now exists d|auto]|now rewrite B].
  - auto.
Qed.

(* If the program doesn't read its input, the client outputs everything that the server managed to send, in order, and its exit status is the instance's. *)
Theorem call_tells_everything : forall l final, no_hint l -> callLoop (on_wire l final) = (bins l, Some final).
Proof.
  intros l final N. destruct (wire_bins l N) as [A B]. unfold on_wire. fold wire1. rewrite (loop_app _ _ A). cbn [fst snd callLoop]. now rewrite B, app_nil_r.
Qed.
Print Assumptions call_tells_everything.
(* If the program does read it, the client ends at the hint about it: the output that follows is lost, and the exit status is 1 however the program ends. *)
Theorem call_tells_everything_refuted : forall before after final, no_hint before ->
  callLoop (on_wire (before ++ (Websocket.Hint, true) :: after) final) = (bins before, Some hint) /\
  remote_exit_of (snd (callLoop (on_wire (before ++ (Websocket.Hint, true) :: after) final))) = 1%Z.
Proof.
  intros a b final N. destruct (wire_bins a N) as [A B].
  assert (E : callLoop (on_wire (a ++ (Websocket.Hint, true) :: b) final) = (bins a, Some hint)).
  { unfold on_wire. fold wire1. rewrite flat_map_app. rewrite <- app_assoc. rewrite (loop_app _ _ A). cbn [flat_map wire1 app callLoop fst snd]. now rewrite B, app_nil_r. }
  split; [exact E|]. rewrite E. reflexivity.
Qed.
Print Assumptions call_tells_everything_refuted.
(* Such a schedule exists: the program reads before it has written everything. *)
Example hint_in_the_middle : exists sched, let w := Websocket.wrun sched (Websocket.ws_init [Websocket.Rd] [[1%Z]; [2%Z; 3%Z]]) in
  Websocket.w_attempts w = [(Websocket.Bin [1%Z], true); (Websocket.Hint, true); (Websocket.Bin [2%Z; 3%Z], true)] /\
  callLoop (on_wire (Websocket.w_attempts w) (St Terminated false 0%Z)) = ([1%Z], Some hint).
Proof.
  exists (repeat (Websocket.Writer true) 5 ++ repeat (Websocket.Reader true) 6 ++ repeat (Websocket.Writer true) 5). vm_compute. split; reflexivity.
Qed.
(* A client which ignores the hint would output everything. *)
Fixpoint patient (msgs : list message) : list Z * option ending :=
  match msgs with
  | [] => ([], None)
  | Binary d :: t => let (out, st) := patient t in (d ++ out, st)
  | Text s true :: t => patient t
  | Text s false :: _ => ([], Some s)
  end.
Theorem call_repair : forall l final, patient (on_wire l final) = (bins l, Some final).
Proof.
  intros l final. unfold on_wire. fold wire1. induction l as [|[m b] l IH]; [reflexivity|].
  destruct m as [|d], b; cbn [flat_map wire1 app patient bins]; auto. rewrite IH. reflexivity.
Qed.
Print Assumptions call_repair.

(* The exit status of a remote call is 0 exactly if the instance terminated normally with a result whose low 8 bits are zero. *)
Theorem remote_call_success : forall s, remote_exit s = 0%Z <-> st_state s = Terminated /\ st_cause s = false /\ (256 | st_result s)%Z.
Proof.
  intros [s c r]. unfold remote_exit, os_exit. cbn [st_state st_cause st_result]. split.
  - destruct s; try discriminate. destruct c; [discriminate|]. intros E. repeat split; auto. apply Z.mod_divide; [discriminate|exact E].
  - intros [-> [-> D]]. apply Z.mod_divide; [discriminate|exact D].
Qed.
(* The processes' results are 0 to 3 (runtime/process.go:293-295): the status is the result. *)
Theorem call_exit_is_result : forall s, st_state s = Terminated -> st_cause s = false -> (0 <= st_result s <= 3)%Z ->
  remote_exit s = st_result s /\ local_exit s = st_result s.
Proof.
  intros [s c r] E C R. unfold remote_exit, local_exit, os_exit. cbn [st_state st_cause st_result] in *. subst. rewrite Z.mod_small by lia. auto.
Qed.
Print Assumptions remote_call_success.
Print Assumptions call_exit_is_result.
(* Yet the local and the remote client disagree: a call that is suspended, or halted with success, is a success for one and a failure for the other;
   and a failing result looks like a killed instance. *)
Theorem same_exit_refuted :
  (local_exit (St Suspended false 0) = 0%Z /\ remote_exit (St Suspended false 0) = 1%Z) /\
  (local_exit (St Halted false 0) = 0%Z /\ remote_exit (St Halted false 0) = 1%Z) /\
  (local_exit (St Terminated false 1) = local_exit (St Killed true 0) /\ remote_exit (St Terminated false 1) = remote_exit (St Killed true 0)).
Proof. repeat split; reflexivity. Qed.
Print Assumptions same_exit_refuted.
