(* RoutesProps.v: requests reach what their paths name (C127), and only PUT and POST requests and websockets change anything (C128). *)
From Verif Require Import Routes.
From Coq Require Import Ascii Lia.

(* ---- Specification.  [names p srcs path d t]: on a server whose prefix is p and which has the sources srcs, the directory or resource
   d makes the path a name of t. ---- *)
Notation "a +++ b" := (String.append a b) (at level 60, right associativity).
Inductive names (p : string) (srcs : list (string * nat)) : string -> string -> target -> Prop :=
| N_features : names p srcs (p +++ "/gate-0/") (p +++ "/gate-0/") TFeatures
| N_module : names p srcs (p +++ "/gate-0/module") (p +++ "/gate-0/module") (TRedirect (p +++ "/gate-0/module/"))
| N_sources : names p srcs (p +++ "/gate-0/module/") (p +++ "/gate-0/module/") TModuleSources
| N_hash : names p srcs (p +++ "/gate-0/module/sha256") (p +++ "/gate-0/module/sha256") (TRedirect (p +++ "/gate-0/module/sha256/"))
| N_known_list : names p srcs (p +++ "/gate-0/module/sha256/") (p +++ "/gate-0/module/sha256/") TKnownModules
| N_known : forall key, key <> "" -> names p srcs (p +++ "/gate-0/module/sha256/" +++ key) (p +++ "/gate-0/module/sha256/") (TKnownModule key)
| N_instance : names p srcs (p +++ "/gate-0/instance") (p +++ "/gate-0/instance") (TRedirect (p +++ "/gate-0/instance/"))
| N_instance_list : names p srcs (p +++ "/gate-0/instance/") (p +++ "/gate-0/instance/") TInstances
| N_instance_id : forall id, id <> "" -> names p srcs (p +++ "/gate-0/instance/" +++ id) (p +++ "/gate-0/instance/") (TInstance id)
| N_source : forall rel s, In (rel, s) srcs -> names p srcs (p +++ "/gate-0/module" +++ rel) (p +++ "/gate-0/module" +++ rel) (TRedirect (p +++ "/gate-0/module" +++ rel +++ "/"))
| N_source_dir : forall rel s, In (rel, s) srcs -> names p srcs (p +++ "/gate-0/module" +++ rel +++ "/") (p +++ "/gate-0/module" +++ rel +++ "/") TSourceDir
| N_source_module : forall rel s x, In (rel, s) srcs -> x <> "" ->
    names p srcs (p +++ "/gate-0/module" +++ rel +++ "/" +++ x) (p +++ "/gate-0/module" +++ rel +++ "/") (TSource s (rel +++ "/" +++ x)).
(* No name of a source ends with a slash. *)
Definition plain (srcs : list (string * nat)) : Prop := forall rel s, In (rel, s) srcs -> forall t, rel <> t +++ "/".

(* ---- Strings ---- *)
Lemma sapp_assoc a b c : (a +++ b) +++ c = a +++ b +++ c.
Proof. induction a as [|x a IH]; cbn; [reflexivity | now rewrite IH]. Qed.
Lemma sapp_nil a : a +++ "" = a.
Proof. induction a as [|x a IH]; cbn; [reflexivity | now rewrite IH]. Qed.
Lemma sapp_head a b c : a +++ b = a +++ c -> b = c.
Proof. induction a as [|x a IH]; cbn; [auto|]. intros H. injection H. auto. Qed.
Lemma slen_app a b : String.length (a +++ b) = (String.length a + String.length b)%nat.
Proof. induction a as [|x a IH]; cbn; [reflexivity | now rewrite IH]. Qed.
Lemma sapp_len : forall a b c d, a +++ b = c +++ d -> String.length a = String.length c -> a = c /\ b = d.
Proof.
  induction a as [|x a IH]; intros b [|y c] d H L; cbn in *; try discriminate; [auto|].
  injection H as -> H. injection L as L. destruct (IH _ _ _ H L) as [-> ->]. auto.
Qed.
Lemma strip_spec : forall d path x, strip d path = Some x <-> path = d +++ x.
Proof.
  induction d as [|c d IH]; intros path x; cbn; [split; congruence|].
  destruct path as [|c' path]; [split; discriminate|].
  destruct (Ascii.eqb_spec c c') as [->|N]; [|split; [discriminate | congruence]].
  rewrite IH. split; [intros ->; reflexivity | intros H; injection H; auto].
Qed.
Lemma is_dir_app a b : b <> "" -> is_dir (a +++ b) = is_dir b.
Proof.
  intros N. induction a as [|x a IH]; [reflexivity|]. cbn [String.append is_dir].
  destruct (a +++ b) as [|y t] eqn:E; [|exact IH].
  destruct a; [contradiction | discriminate].
Qed.
Lemma is_dir_spec : forall s, is_dir s = true <-> exists t, s = t +++ "/".
Proof.
  induction s as [|c s IH]; cbn.
  - split; [discriminate|]. intros [[|a t] H]; discriminate.
  - destruct s as [|c' s].
    + split.
      * destruct (Ascii.eqb_spec c "047") as [->|N]; [|discriminate]. intros _. exists "". reflexivity.
      * intros [[|a t] H]; [injection H as ->; reflexivity|]. injection H as _ H. destruct t; discriminate.
    + rewrite IH. split.
      * intros [t ->]. exists (String c t). reflexivity.
      * intros [[|a t] H]; [discriminate|]. injection H as _ H. exists t. exact H.
Qed.
Lemma is_dir_slash a : is_dir (a +++ "/") = true.
Proof. apply is_dir_spec. eauto. Qed.

(* ---- The multiplexer ---- *)
Lemma register_ok m d h m' : register m d h = Ok m' -> m' = m ++ [(d, h)] /\ ~ In d (map fst m).
Proof.
  unfold register. destruct (String.eqb d ""); [discriminate|]. destruct (existsb _ m) eqn:E; [discriminate|].
  intros H. injection H as <-. split; [reflexivity|]. intros I. apply in_map_iff in I as [[d' h'] [<- I]].
  enough (existsb (fun e => String.eqb (fst e) d') m = true) by (cbn in E; congruence).
  apply existsb_exists. exists (d', h'). split; [exact I|]. apply String.eqb_refl.
Qed.
Lemma nodup_snoc (m : mux) d h : NoDup (map fst m) -> ~ In d (map fst m) -> NoDup (map fst (m ++ [(d, h)])).
Proof.
  intros N I. rewrite map_app. cbn. apply NoDup_Add with (a := d) (l := map fst m); [|split; assumption].
  rewrite <- (app_nil_r (map fst m)) at 1. apply Add_app.
Qed.
Definition source_entries (p : string) (srcs : list (string * nat)) : mux :=
  flat_map (fun e => [(p +++ PathModule +++ fst e, HRedirect (p +++ PathModule +++ fst e));
                      ((p +++ PathModule +++ fst e) +++ "/", HSource (p +++ PathModule) ((p +++ PathModule +++ fst e) +++ "/") (snd e))]) srcs.
Lemma register_sources_ok p : forall srcs m m', register_sources p srcs m = Ok m' -> NoDup (map fst m) ->
  m' = m ++ source_entries p srcs /\ NoDup (map fst m').
Proof.
  induction srcs as [|[rel s] t IH]; intros m m' H N; cbn [register_sources] in H.
  - injection H as <-. cbn. rewrite app_nil_r. auto.
  - destruct (register m _ _) as [m1| |] eqn:E1; cbn [bind] in H; try discriminate.
    destruct (register m1 _ _) as [m2| |] eqn:E2; cbn [bind] in H; try discriminate.
    apply register_ok in E1 as [-> I1]. apply register_ok in E2 as [-> I2].
    destruct (IH _ _ H) as [-> N']; [apply nodup_snoc; [apply nodup_snoc|]; assumption|].
    split; [|exact N']. cbn. rewrite <- !app_assoc. reflexivity.
Qed.
Definition fixed_entries (p : string) : mux :=
  [(p +++ Path, HFeatures (p +++ Path)); (p +++ PathModule, HRedirect (p +++ PathModule)); (p +++ PathInstance, HRedirect (p +++ PathInstance));
   (p +++ PathInstances, HInstances (p +++ PathInstances));
   (p +++ PathModuleSources +++ KnownModuleSource, HRedirect (p +++ PathModuleSources +++ KnownModuleSource));
   (p +++ PathKnownModules, HKnown (p +++ PathKnownModules))].
Lemma newMux_ok p srcs m : newMux p srcs = Ok m ->
  m = fixed_entries p ++ source_entries p srcs ++ [(p +++ PathModuleSources, HSources (p +++ PathModuleSources))] /\ NoDup (map fst m).
Proof.
  unfold newMux. intros H.
  repeat match type of H with
  | bind (register ?a ?b ?c) _ = _ => let E := fresh "E" in destruct (register a b c) eqn:E; cbn [bind] in H; try discriminate; apply register_ok in E as [-> ?]
  end.
  destruct (register_sources p srcs _) as [m1| |] eqn:E; cbn [bind] in H; try discriminate.
  apply register_ok in H as [-> I].
  apply register_sources_ok in E as [-> N].
  - split; [|apply nodup_snoc; assumption]. cbn. rewrite <- ?app_assoc. reflexivity.
  - repeat (apply nodup_snoc; [|assumption]). constructor.
Qed.
Lemma in_source p srcs d h : In (d, h) (source_entries p srcs) <->
  exists rel s, In (rel, s) srcs /\
    ((d = p +++ PathModule +++ rel /\ h = HRedirect d) \/ (d = p +++ PathModule +++ rel +++ "/" /\ h = HSource (p +++ PathModule) d s)).
Proof.
  unfold source_entries. rewrite in_flat_map. split.
  - intros [[rel s] [I H]]. exists rel, s. split; [exact I|]. cbn in H. destruct H as [H|[H|[]]]; injection H as <- <-; [left; auto|].
    right. rewrite ?sapp_assoc. auto.
  - intros [rel [s [I H]]]. exists (rel, s). split; [exact I|]. cbn [fst snd]. destruct H as [[-> ->]|[-> ->]]; [left; reflexivity|].
    right. left. rewrite ?sapp_assoc. reflexivity.
Qed.

Lemma exact_spec : forall m path h, NoDup (map fst m) -> exact m path = Some h <-> In (path, h) m.
Proof.
  induction m as [|[d h0] m IH]; intros path h N; cbn [exact].
  - split; [discriminate | intros []].
  - cbn in N. inversion N as [|? ? N1 N2]; subst. destruct (String.eqb_spec d path) as [->|D].
    + split; [intros H; injection H as ->; left; reflexivity|]. intros [H|H]; [congruence|].
      exfalso. apply N1. apply in_map_iff. exists (path, h). auto.
    + rewrite (IH _ _ N2). split; [right; assumption|]. intros [H|H]; [congruence | exact H].
Qed.
Lemma longest_none : forall m path, longest m path = None -> forall d h x, In (d, h) m -> is_dir d = true -> path <> d +++ x.
Proof.
  induction m as [|[d2 h2] m IH]; intros path L d h x E D P; [destruct E|]. cbn [longest] in L. destruct E as [E|E].
  - injection E as -> ->. rewrite D in L. apply strip_spec in P. rewrite P in L. destruct (longest m path) as [[? ?]|]; [destruct (Nat.ltb _ _)|]; discriminate.
  - destruct (longest m path) as [[? ?]|] eqn:Q; [|exact (IH _ Q _ _ _ E D P)].
    destruct (is_dir d2); [destruct (strip d2 path)|]; try discriminate. destruct (Nat.ltb _ _); discriminate.
Qed.
Lemma longest_some : forall m path d h, longest m path = Some (d, h) ->
  In (d, h) m /\ is_dir d = true /\ (exists x, path = d +++ x) /\
  forall d' h' x', In (d', h') m -> is_dir d' = true -> path = d' +++ x' -> (String.length d' <= String.length d)%nat.
Proof.
  induction m as [|[d0 h0] m IH]; intros path d h H; cbn [longest] in H; [discriminate|].
  destruct (is_dir d0) eqn:D0; [destruct (strip d0 path) as [x0|] eqn:S0|].
  - destruct (longest m path) as [[d1 h1]|] eqn:L.
    + destruct (IH _ _ _ L) as [I [D [X M]]]. destruct (Nat.ltb_spec (String.length d0) (String.length d1)) as [Q|Q]; injection H as <- <-.
      * split; [right; exact I|]. split; [exact D|]. split; [exact X|]. intros d' h' x' [E|E] D' P; [injection E as <- <-; lia | exact (M _ _ _ E D' P)].
      * apply strip_spec in S0. split; [left; reflexivity|]. split; [exact D0|]. split; [eauto|].
        intros d' h' x' [E|E] D' P; [injection E as <- <-; lia | specialize (M _ _ _ E D' P); lia].
    + injection H as <- <-. apply strip_spec in S0. split; [left; reflexivity|]. split; [exact D0|]. split; [eauto|].
      intros d' h' x' [E|E] D' P; [injection E as <- <-; lia|]. exfalso. exact (longest_none _ _ L _ _ _ E D' P).
  - destruct (IH _ _ _ H) as [I [D [X M]]]. split; [right; exact I|]. split; [exact D|]. split; [exact X|].
    intros d' h' x' [E|E] D' P; [|exact (M _ _ _ E D' P)]. injection E as <- <-. apply strip_spec in P. congruence.
  - destruct (IH _ _ _ H) as [I [D [X M]]]. split; [right; exact I|]. split; [exact D|]. split; [exact X|].
    intros d' h' x' [E|E] D' P; [|exact (M _ _ _ E D' P)]. injection E as <- <-. congruence.
Qed.
(* ---- Entries and names ---- *)
Definition applies (d path : string) : Prop := path = d \/ (is_dir d = true /\ exists x, x <> "" /\ path = d +++ x).
Lemma rest_app d x : rest d (d +++ x) = x.
Proof. unfold rest. destruct (strip d (d +++ x)) as [y|] eqn:E; [apply strip_spec in E; apply sapp_head in E; auto|].
  assert (strip d (d +++ x) = Some x) by (now apply strip_spec). congruence. Qed.
Lemma slen0 x : String.length x = 0%nat -> x = "".
Proof. destruct x; [reflexivity | discriminate]. Qed.
Ltac sassoc := repeat rewrite sapp_assoc; cbn [String.append].
Ltac fx := unfold Path, PathModule, PathModuleSources, PathKnownModules, PathInstances, PathInstance, KnownModuleSource in *; cbn [String.append] in *.

Lemma in_mux p srcs m d h : newMux p srcs = Ok m -> In (d, h) m <->
  (d = p +++ "/gate-0/" /\ h = HFeatures d) \/ (d = p +++ "/gate-0/module" /\ h = HRedirect d) \/
  (d = p +++ "/gate-0/instance" /\ h = HRedirect d) \/ (d = p +++ "/gate-0/instance/" /\ h = HInstances d) \/
  (d = p +++ "/gate-0/module/sha256" /\ h = HRedirect d) \/ (d = p +++ "/gate-0/module/sha256/" /\ h = HKnown d) \/
  (d = p +++ "/gate-0/module/" /\ h = HSources d) \/
  exists rel s, In (rel, s) srcs /\
    ((d = p +++ "/gate-0/module" +++ rel /\ h = HRedirect d) \/ (d = p +++ "/gate-0/module" +++ rel +++ "/" /\ h = HSource (p +++ "/gate-0/module") d s)).
Proof.
  intros E. apply newMux_ok in E as [-> _]. rewrite !in_app_iff, in_source. cbn [In fixed_entries]. fx. split.
  - intros [[H|[H|[H|[H|[H|[H|[]]]]]]]|[H|[H|[]]]]; try (injection H as <- <-); auto 12.
  - intros [[-> ->]|[[-> ->]|[[-> ->]|[[-> ->]|[[-> ->]|[[-> ->]|[[-> ->]|H]]]]]]]; auto 12.
Qed.

Lemma entry_names p srcs m d h path : newMux p srcs = Ok m -> In (d, h) m -> applies d path -> target_of h path <> TNotFound ->
  names p srcs path d (target_of h path).
Proof.
  intros E I A T. apply (in_mux p srcs m d h E) in I.
  assert (Q : forall d x, x <> "" -> Nat.eqb (String.length (d +++ x)) (String.length d) = false)
    by (intros d1 x X; apply Nat.eqb_neq; rewrite slen_app; intros L; apply X; apply slen0; lia).
  assert (R : forall d x, x <> "" -> String.eqb (d +++ x) d = false).
  { intros d1 x X. apply String.eqb_neq. intros F. apply X. apply (sapp_head d1). rewrite F. now rewrite sapp_nil. }
  destruct I as [[-> ->]|[[-> ->]|[[-> ->]|[[-> ->]|[[-> ->]|[[-> ->]|[[-> ->]|[rel [s [I [[-> ->]|[-> ->]]]]]]]]]]]]; destruct A as [->|[D [x [X ->]]]];
    cbn [target_of] in *; rewrite ?String.eqb_refl, ?Nat.eqb_refl, ?(Q _ _ X), ?(R _ _ X) in *; rewrite ?rest_app; try (exfalso; apply T; reflexivity).
  - constructor.
  - sassoc. apply N_module.
  - sassoc. apply N_instance.
  - apply N_instance_list.
  - rewrite sapp_assoc. apply N_instance_id. exact X.
  - sassoc. apply N_hash.
  - apply N_known_list.
  - rewrite sapp_assoc. apply N_known. exact X.
  - apply N_sources.
  - rewrite ?sapp_assoc. eapply N_source. exact I.
  - eapply N_source_dir. exact I.
  - replace ((p +++ "/gate-0/module" +++ rel +++ "/") +++ x) with ((p +++ "/gate-0/module") +++ rel +++ "/" +++ x) by (rewrite ?sapp_assoc; reflexivity).
    rewrite rest_app. rewrite sapp_assoc. apply N_source_module; assumption.
Qed.
Lemma names_entry p srcs m d t path : newMux p srcs = Ok m -> names p srcs path d t ->
  exists h, In (d, h) m /\ applies d path /\ target_of h path = t /\ t <> TNotFound.
Proof.
  intros E N.
  assert (Q : forall d x, x <> "" -> Nat.eqb (String.length (d +++ x)) (String.length d) = false)
    by (intros d1 x X; apply Nat.eqb_neq; rewrite slen_app; intros L; apply X; apply slen0; lia).
  pose proof (fun d h => proj2 (in_mux p srcs m d h E)) as J.
  destruct N.
  - exists (HFeatures (p +++ "/gate-0/")). split; [apply J; auto 12|]. split; [left; reflexivity|]. cbn [target_of]. rewrite String.eqb_refl. split; [reflexivity | discriminate].
  - exists (HRedirect (p +++ "/gate-0/module")). split; [apply J; auto 12|]. split; [left; reflexivity|]. cbn [target_of]. rewrite String.eqb_refl. sassoc. split; [reflexivity | discriminate].
  - exists (HSources (p +++ "/gate-0/module/")). split; [apply J; auto 12|]. split; [left; reflexivity|]. cbn [target_of]. rewrite String.eqb_refl. split; [reflexivity | discriminate].
  - exists (HRedirect (p +++ "/gate-0/module/sha256")). split; [apply J; auto 12|]. split; [left; reflexivity|]. cbn [target_of]. rewrite String.eqb_refl. sassoc. split; [reflexivity | discriminate].
  - exists (HKnown (p +++ "/gate-0/module/sha256/")). split; [apply J; auto 12|]. split; [left; reflexivity|]. cbn [target_of]. rewrite Nat.eqb_refl. split; [reflexivity | discriminate].
  - exists (HKnown (p +++ "/gate-0/module/sha256/")). split; [apply J; auto 12|]. rewrite <- (sapp_assoc p "/gate-0/module/sha256/" key).
    split; [right; split; [rewrite is_dir_app; [reflexivity | discriminate] | eauto]|].
    cbn [target_of]. rewrite (Q _ _ H), rest_app. split; [reflexivity | discriminate].
  - exists (HRedirect (p +++ "/gate-0/instance")). split; [apply J; auto 12|]. split; [left; reflexivity|]. cbn [target_of]. rewrite String.eqb_refl. sassoc. split; [reflexivity | discriminate].
  - exists (HInstances (p +++ "/gate-0/instance/")). split; [apply J; auto 12|]. split; [left; reflexivity|]. cbn [target_of]. rewrite Nat.eqb_refl. split; [reflexivity | discriminate].
  - exists (HInstances (p +++ "/gate-0/instance/")). split; [apply J; auto 12|]. rewrite <- (sapp_assoc p "/gate-0/instance/" id).
    split; [right; split; [rewrite is_dir_app; [reflexivity | discriminate] | eauto]|].
    cbn [target_of]. rewrite (Q _ _ H), rest_app. split; [reflexivity | discriminate].
  - exists (HRedirect (p +++ "/gate-0/module" +++ rel)). split; [apply J; do 7 right; eauto 8|]. split; [left; reflexivity|]. cbn [target_of]. rewrite String.eqb_refl.
    split; [rewrite ?sapp_assoc; reflexivity | discriminate].
  - eexists (HSource (p +++ "/gate-0/module") (p +++ "/gate-0/module" +++ rel +++ "/") s). split; [apply J; do 7 right; eauto 8|]. split; [left; reflexivity|]. cbn [target_of]. rewrite Nat.eqb_refl.
    split; [reflexivity | discriminate].
  - eexists (HSource (p +++ "/gate-0/module") (p +++ "/gate-0/module" +++ rel +++ "/") s). split; [apply J; do 7 right; eauto 8|].
    replace (p +++ "/gate-0/module" +++ rel +++ "/" +++ x) with ((p +++ "/gate-0/module" +++ rel +++ "/") +++ x) by (rewrite ?sapp_assoc; reflexivity).
    split; [right; split; [rewrite <- (sapp_assoc "/gate-0/module" rel "/"), <- (sapp_assoc p _ "/"); apply is_dir_slash | eauto]|].
    cbn [target_of]. rewrite (Q _ _ H0). split; [|discriminate].
    replace ((p +++ "/gate-0/module" +++ rel +++ "/") +++ x) with ((p +++ "/gate-0/module") +++ rel +++ "/" +++ x) by (rewrite ?sapp_assoc; reflexivity).
    now rewrite rest_app.
Qed.

(* ---- C127 ---- *)
Lemma applies_prefix d path : applies d path -> exists x, path = d +++ x.
Proof. intros [->|[_ [x [_ ->]]]]; [exists ""; now rewrite sapp_nil | eauto]. Qed.
Lemma exact_target p srcs m path h : newMux p srcs = Ok m -> In (path, h) m -> target_of h path <> TNotFound.
Proof.
  intros E I. apply (in_mux p srcs m path h E) in I.
  destruct I as [[_ ->]|[[_ ->]|[[_ ->]|[[_ ->]|[[_ ->]|[[_ ->]|[[_ ->]|[rel [s [_ [[_ ->]|[_ ->]]]]]]]]]]]]; cbn [target_of]; rewrite ?String.eqb_refl, ?Nat.eqb_refl; discriminate.
Qed.
Lemma plain_app srcs rel s : plain srcs -> In (rel, s) srcs -> is_dir rel = false.
Proof. intros P I. destruct (is_dir rel) eqn:D; [|reflexivity]. apply is_dir_spec in D as [t D]. destruct (P _ _ I _ D). Qed.
Lemma source_not_dir p srcs rel s : plain srcs -> In (rel, s) srcs -> is_dir (p +++ "/gate-0/module" +++ rel) = false.
Proof.
  intros P I. rewrite is_dir_app by discriminate. destruct rel as [|c rel]; [reflexivity|].
  rewrite is_dir_app by discriminate. exact (plain_app _ _ _ P I).
Qed.
Lemma nodup_in (m : mux) d h h' : NoDup (map fst m) -> In (d, h) m -> In (d, h') m -> h = h'.
Proof. intros N A B. apply (exact_spec m d h N) in A. apply (exact_spec m d h' N) in B. congruence. Qed.
Lemma redirect_only_api p srcs m path : newMux p srcs = Ok m -> plain srcs -> should_redirect m path = true -> path = p +++ "/gate-0".
Proof.
  intros E P. pose proof (newMux_ok _ _ _ E) as [_ N]. unfold should_redirect. destruct (exact m path) eqn:X; [discriminate|].
  destruct (String.eqb path ""); cbn [negb andb]; [discriminate|].
  destruct (exact m (path +++ "/")) as [h|] eqn:Y; [|discriminate]. intros _.
  assert (Z : forall h, ~ In (path, h) m) by (intros h0 I; apply (exact_spec m path h0 N) in I; congruence).
  apply (exact_spec m _ h N) in Y. apply (in_mux p srcs m _ h E) in Y.
  assert (J : forall a, path +++ "/" = a +++ "/" -> path = a).
  { intros a H. refine (proj1 (sapp_len _ _ _ _ H _)). apply (f_equal String.length) in H. rewrite !slen_app in H. lia. }
  assert (K : forall a, is_dir a = false -> path +++ "/" <> a) by (intros a D F; rewrite <- F, is_dir_slash in D; discriminate).
  pose proof (fun h => proj2 (in_mux p srcs m path h E)) as W.
  destruct Y as [[Y _]|[[Y _]|[[Y _]|[[Y _]|[[Y _]|[[Y _]|[[Y _]|[rel [s [I [[Y _]|[Y _]]]]]]]]]]]].
  - apply J. rewrite Y. sassoc. reflexivity.
  - exfalso. refine (K _ _ Y). now rewrite is_dir_app.
  - exfalso. refine (K _ _ Y). now rewrite is_dir_app.
  - exfalso. apply (Z (HRedirect path)). apply W. do 2 right. left. split; [|reflexivity]. apply J. rewrite Y. sassoc. reflexivity.
  - exfalso. refine (K _ _ Y). now rewrite is_dir_app.
  - exfalso. apply (Z (HRedirect path)). apply W. do 4 right. left. split; [|reflexivity]. apply J. rewrite Y. sassoc. reflexivity.
  - exfalso. apply (Z (HRedirect path)). apply W. do 1 right. left. split; [|reflexivity]. apply J. rewrite Y. sassoc. reflexivity.
  - exfalso. refine (K _ _ Y). exact (source_not_dir p srcs rel s P I).
  - exfalso. apply (Z (HRedirect path)). apply W. do 7 right. exists rel, s. split; [exact I|]. left. split; [|reflexivity]. apply J. rewrite Y, ?sapp_assoc. reflexivity.
Qed.
Lemma names_under p srcs path d t : names p srcs path d t -> exists x, path = p +++ "/gate-0/" +++ x.
Proof.
  destruct 1; [exists "" | exists "module" | exists "module/" | exists "module/sha256" | exists "module/sha256/" | exists ("module/sha256/" +++ key) | exists "instance" |
    exists "instance/" | exists ("instance/" +++ id) | exists ("module" +++ rel) | exists ("module" +++ rel +++ "/") | exists ("module" +++ rel +++ "/" +++ x)]; sassoc; reflexivity.
Qed.
Lemma names_not_api p srcs d t : ~ names p srcs (p +++ "/gate-0") d t.
Proof.
  intros N. apply names_under in N as [x N]. apply sapp_head in N. discriminate.
Qed.

(* The most specific directory or resource that makes the path a name decides.  Without any, there is nothing, except that the API's
   path without a slash at the end is completed. *)
Theorem requests_reach_what_they_name : forall p srcs m path, newMux p srcs = Ok m -> plain srcs ->
  (forall d t, names p srcs path d t -> (forall d' t', names p srcs path d' t' -> (String.length d' <= String.length d)%nat) -> locate m path = t) /\
  ((forall d t, ~ names p srcs path d t) -> path <> p +++ "/gate-0" -> locate m path = TNotFound) /\
  (path = p +++ "/gate-0" -> locate m path = TMoved (p +++ "/gate-0/")).
Proof.
  intros p srcs m path E P. pose proof (newMux_ok _ _ _ E) as [_ N]. split; [|split].
  - intros d t H M. destruct (names_entry _ _ _ _ _ _ E H) as [h [I [A [T NT]]]]. unfold locate.
    destruct (should_redirect m path) eqn:R; [apply (redirect_only_api p srcs m path E P) in R; subst path; destruct (names_not_api _ _ _ _ H)|]. clear R.
    destruct (applies_prefix _ _ A) as [x PX]. unfold match_. destruct (exact m path) as [h'|] eqn:X.
    + apply (exact_spec m path h' N) in X. pose proof (exact_target _ _ _ _ _ E X) as T'.
      specialize (M _ _ (entry_names _ _ _ _ _ _ E X (or_introl eq_refl) T')).
      assert (x = "") as -> by (apply slen0; apply (f_equal String.length) in PX; rewrite slen_app in PX; lia).
      rewrite sapp_nil in PX. subst d. rewrite (nodup_in _ _ _ _ N X I). exact T.
    + assert (A' : is_dir d = true /\ exists x, x <> "" /\ path = d +++ x).
      { destruct A as [->|A]; [|exact A]. apply (exact_spec m d h N) in I. congruence. }
      destruct A' as [D _]. destruct (longest m path) as [[d' h']|] eqn:L; [|destruct (longest_none _ _ L _ _ _ I D PX)].
      apply longest_some in L as [I' [D' [[x' PX'] M']]]. specialize (M' _ _ _ I D PX).
      assert (NE : path <> d') by (intros F; rewrite <- F in I'; apply (exact_spec m path h' N) in I'; congruence).
      assert (X' : x' <> "") by (intros F; subst x'; rewrite sapp_nil in PX'; contradiction).
      assert (AP : applies d' path) by (right; eauto).
      assert (G : String.length d' = String.length d -> target_of h' path = t).
      { intros L. assert (d' = d) as -> by (refine (proj1 (sapp_len d' x' d x _ L)); congruence). rewrite (nodup_in _ _ _ _ N I' I). exact T. }
      destruct (target_of h' path) eqn:Q;
        try (apply G; assert (Q' : target_of h' path <> TNotFound) by congruence; specialize (M _ _ (entry_names _ _ _ _ _ _ E I' AP Q')); lia).
      (* A directory that has the path in it but doesn't know it *)
      exfalso. assert (NE2 : path <> d) by (intros F; rewrite <- F in I; apply (exact_spec m path h N) in I; congruence).
      assert (BX : x <> "") by (intros F; subst x; rewrite sapp_nil in PX; contradiction).
      assert (EQ : d <> d') by (intros F; subst d'; pose proof (nodup_in _ _ _ _ N I' I); subst h'; congruence).
      apply (in_mux p srcs m d' h' E) in I'. apply (in_mux p srcs m d h E) in I.
      assert (LL : (String.length p + 8 < String.length d)%nat).
      { destruct I as [[-> ->]|[[-> ->]|[[-> ->]|[[-> ->]|[[-> ->]|[[-> ->]|[[-> ->]|[rel [s [I [[-> ->]|[-> ->]]]]]]]]]]]]; rewrite ?slen_app in *; cbn [String.length] in *; try lia.
        exfalso. apply NT. rewrite <- T. cbn [target_of]. now rewrite (proj2 (String.eqb_neq _ _) NE2). }
      destruct I' as [[-> ->]|[[-> ->]|[[-> ->]|[[-> ->]|[[-> ->]|[[-> ->]|[[-> ->]|[rel' [s' [I' [[-> ->]|[-> ->]]]]]]]]]]]].
      * rewrite slen_app in M'. cbn [String.length] in M'. lia.
      * now rewrite is_dir_app in D'.
      * now rewrite is_dir_app in D'.
      * cbn [target_of] in Q. destruct (Nat.eqb _ _); discriminate.
      * now rewrite is_dir_app in D'.
      * cbn [target_of] in Q. destruct (Nat.eqb _ _); discriminate.
      * rewrite slen_app in M'. cbn [String.length] in M'.
        destruct I as [[-> ->]|[[-> ->]|[[-> ->]|[[-> ->]|[[-> ->]|[[-> ->]|[[-> ->]|[rel [s [I [[-> ->]|[-> ->]]]]]]]]]]]]; rewrite ?slen_app in *; cbn [String.length] in *; try lia.
        -- now rewrite is_dir_app in D.
        -- contradiction.
        -- rewrite (source_not_dir p srcs rel s P I) in D. discriminate.
        -- apply EQ. rewrite (slen0 rel) by lia. reflexivity.
      * rewrite (source_not_dir p srcs rel' s' P I') in D'. discriminate.
      * cbn [target_of] in Q. destruct (Nat.eqb _ _); discriminate.
  - intros NN NE. unfold locate.
    destruct (should_redirect m path) eqn:R; [destruct (NE (redirect_only_api p srcs m path E P R))|].
    unfold match_. destruct (exact m path) as [h|] eqn:X.
    + apply (exact_spec m path h N) in X. pose proof (exact_target _ _ _ _ _ E X) as T'.
      destruct (NN _ _ (entry_names _ _ _ _ _ _ E X (or_introl eq_refl) T')).
    + destruct (longest m path) as [[d h]|] eqn:L; [|reflexivity]. apply longest_some in L as [I [D [[x PX] _]]].
      assert (A : applies d path).
      { destruct x as [|c x]; [left; now rewrite sapp_nil in PX|]. right. split; [exact D|]. exists (String c x). split; [discriminate | exact PX]. }
      destruct (target_of h path) eqn:Q; [reflexivity | exfalso..];
        (refine (NN _ _ (entry_names _ _ _ _ _ _ E I A _)); congruence).
  - intros ->. unfold locate. assert (R : should_redirect m (p +++ "/gate-0") = true).
    { unfold should_redirect. destruct (exact m (p +++ "/gate-0")) as [h|] eqn:X.
      - exfalso. apply (exact_spec m _ h N) in X. exact (names_not_api _ _ _ _ (entry_names _ _ _ _ _ _ E X (or_introl eq_refl) (exact_target _ _ _ _ _ E X))).
      - assert (I : In (p +++ "/gate-0/", HFeatures (p +++ "/gate-0/")) m) by (apply (in_mux p srcs m _ _ E); left; auto).
        replace ((p +++ "/gate-0") +++ "/") with (p +++ "/gate-0/") by (sassoc; reflexivity).
        apply (exact_spec m _ _ N) in I. rewrite I. rewrite is_dir_app by discriminate.
        destruct p; reflexivity. }
    rewrite R. sassoc. reflexivity.
Qed.
Print Assumptions requests_reach_what_they_name.

(* An instance's name always reaches it; no source can get in the way. *)
Theorem instances_reached : forall p srcs m id, newMux p srcs = Ok m -> plain srcs -> id <> "" ->
  locate m (p +++ "/gate-0/instance/" +++ id) = TInstance id.
Proof.
  intros p srcs m id E P I. refine (proj1 (requests_reach_what_they_name p srcs m _ E P) _ _ (N_instance_id p srcs id I) _).
  intros d t N. remember (p +++ "/gate-0/instance/" +++ id) as path eqn:Q. destruct N; rewrite ?slen_app in *; cbn [String.length] in *; try lia;
    apply sapp_head in Q; cbn [String.append] in Q; try discriminate.
Qed.
Print Assumptions instances_reached.
(* A module's id (which has no slashes) reaches the module, unless a source has been configured with that very name. *)
Definition no_slash (s : string) : Prop := forall a b, s <> a +++ "/" +++ b.
Lemma no_slash_nil a b : "" <> a +++ "/" +++ b. Proof. destruct a; discriminate. Qed.
Theorem known_modules_reached : forall p srcs m key, newMux p srcs = Ok m -> plain srcs -> key <> "" -> no_slash key ->
  (forall s, ~ In ("/sha256/" +++ key, s) srcs) -> locate m (p +++ "/gate-0/module/sha256/" +++ key) = TKnownModule key.
Proof.
  intros p srcs m key E P K NS NI. refine (proj1 (requests_reach_what_they_name p srcs m _ E P) _ _ (N_known p srcs key K) _).
  intros d t N. remember (p +++ "/gate-0/module/sha256/" +++ key) as path eqn:Q.
  assert (D : forall rel x, "/gate-0/module" +++ rel +++ "/" +++ x = "/gate-0/module/sha256/" +++ key -> (String.length rel <= 7)%nat).
  { intros rel x H. cbn [String.append] in H. repeat (injection H as H).
    do 8 (destruct rel as [|? rel]; [cbn; lia|]; cbn [String.append] in H; injection H as ? H).
    destruct (NS rel x). symmetry. exact H. }
  destruct N; rewrite ?slen_app in *; cbn [String.length] in *; try lia; apply sapp_head in Q; cbn [String.append] in Q; try discriminate.
  - repeat (injection Q as Q). destruct (NI s). cbn [String.append]. rewrite <- Q. assumption.
  - specialize (D rel ""). cbn [String.append] in D. specialize (D Q). lia.
  - specialize (D rel x). cbn [String.append] in D. specialize (D Q). lia.
Qed.
Print Assumptions known_modules_reached.

(* Non-vacuity: a server with nested sources. *)
Definition ex_sources : list (string * nat) := [("/a", 0%nat); ("/a/b", 1%nat); ("/sha256/x", 2%nat)].
Definition ex_mux : mux := match newMux "/p" ex_sources with Ok m => m | _ => [] end.
Example ex_mux_ok : newMux "/p" ex_sources = Ok ex_mux. Proof. reflexivity. Qed.
Example ex_plain : plain ex_sources.
Proof.
  intros rel s I t F. assert (is_dir rel = true) by (subst rel; apply is_dir_slash).
  cbn in I. destruct I as [I|[I|[I|[]]]]; injection I as <- <-; discriminate.
Qed.
Example ex_located : map (locate ex_mux) ["/p/gate-0/module/a/foo"; "/p/gate-0/module/a/b"; "/p/gate-0/module/a/b/c/d"; "/p/gate-0/module/sha256/x/y"; "/p/gate-0/module/sha256/xy";
    "/p/gate-0/instance/i"; "/p/gate-0/module/c/d"; "/p/gate-0"; "/p/gate-0/module"; "/other"] =
  [TSource 0 "/a/foo"; TRedirect "/p/gate-0/module/a/b/"; TSource 1 "/a/b/c/d"; TSource 2 "/sha256/x/y"; TKnownModule "xy";
   TInstance "i"; TNotFound; TMoved "/p/gate-0/"; TRedirect "/p/gate-0/module/"; TNotFound].
Proof. reflexivity. Qed.
Example ex_clash : newMux "/p" [("/sha256", 0%nat)] = Panic. Proof. reflexivity. Qed.
(* The order in which the sources are registered doesn't matter. *)
Theorem sources_order_irrelevant : forall p srcs srcs' m m' path, newMux p srcs = Ok m -> newMux p srcs' = Ok m' -> plain srcs ->
  (forall e, In e srcs <-> In e srcs') -> locate m path = locate m' path.
Proof.
  intros p srcs srcs' m m' path E E' P S.
  assert (P' : plain srcs') by (intros rel s I; apply (P rel s); now apply S).
  assert (SN : forall d t, names p srcs path d t <-> names p srcs' path d t).
  { intros d t. split; destruct 1; econstructor; try assumption; apply S; eassumption. }
  destruct (requests_reach_what_they_name p srcs m path E P) as [A [B C]].
  destruct (requests_reach_what_they_name p srcs' m' path E' P') as [A' [B' C']].
  destruct (String.eqb_spec path (p +++ "/gate-0")) as [Q|Q]; [rewrite C, C'; auto|].
  (* some name is the most specific one, or there are no names *)
  assert (X : (exists d t, names p srcs path d t /\ forall d' t', names p srcs path d' t' -> (String.length d' <= String.length d)%nat) \/ (forall d t, ~ names p srcs path d t)).
  { assert (U : forall l : mux, (exists d h, In (d, h) l /\ applies d path /\ target_of h path <> TNotFound /\
        forall d' h', In (d', h') l -> applies d' path -> target_of h' path <> TNotFound -> (String.length d' <= String.length d)%nat) \/
        (forall d h, In (d, h) l -> applies d path -> target_of h path = TNotFound)).
    { induction l as [|[d h] l IH]; [right; intros d h []|].
      assert (DA : applies d path \/ ~ applies d path).
      { unfold applies. destruct (String.eqb_spec path d) as [->|NE]; [auto|]. destruct (is_dir d); [|right; intros [?|[? _]]; [contradiction | discriminate]].
        destruct (strip d path) as [x|] eqn:SP.
        - apply strip_spec in SP. left. right. split; [reflexivity|]. exists x. split; [|exact SP]. intros ->. rewrite sapp_nil in SP. contradiction.
        - right. intros [?|[_ [x [_ F]]]]; [contradiction|]. apply strip_spec in F. congruence. }
      assert (DT : target_of h path = TNotFound \/ target_of h path <> TNotFound) by (destruct (target_of h path); auto; right; discriminate).
      destruct DA as [DA|DA]; [destruct DT as [DT|DT]|].
      2: { left. destruct IH as [[d0 [h0 [I [A0 [T0 M0]]]]]|IH].
           - destruct (Nat.le_gt_cases (String.length d0) (String.length d)) as [LE|LE].
             + exists d, h. split; [left; reflexivity|]. split; [exact DA|]. split; [exact DT|]. intros d' h' [F|F] A1 T1; [injection F as <- <-; lia | specialize (M0 _ _ F A1 T1); lia].
             + exists d0, h0. split; [right; exact I|]. split; [exact A0|]. split; [exact T0|]. intros d' h' [F|F] A1 T1; [injection F as <- <-; lia | exact (M0 _ _ F A1 T1)].
           - exists d, h. split; [left; reflexivity|]. split; [exact DA|]. split; [exact DT|]. intros d' h' [F|F] A1 T1; [injection F as <- <-; lia | destruct (T1 (IH _ _ F A1))]. }
      all: destruct IH as [[d0 [h0 [I [A0 [T0 M0]]]]]|IH];
        [left; exists d0, h0; split; [right; exact I|]; split; [exact A0|]; split; [exact T0|]; intros d' h' [F|F] A1 T1; [injection F as <- <-; contradiction | exact (M0 _ _ F A1 T1)]
        |right; intros d' h' [F|F] A1; [injection F as <- <-; first [exact DT | contradiction] | exact (IH _ _ F A1)]]. }
    destruct (U m) as [[d [h [I [A0 [T0 M0]]]]]|U0].
    - left. exists d, (target_of h path). split; [exact (entry_names _ _ _ _ _ _ E I A0 T0)|]. intros d' t' N. destruct (names_entry _ _ _ _ _ _ E N) as [h' [I' [A1 [T1 NT1]]]].
      subst t'. exact (M0 _ _ I' A1 NT1).
    - right. intros d t N. destruct (names_entry _ _ _ _ _ _ E N) as [h' [I' [A1 [T1 NT1]]]]. apply NT1. rewrite <- T1. exact (U0 _ _ I' A1). }
  destruct X as [[d [t [N M]]]|X].
  - rewrite (A d t N M). symmetry. apply (A' d t); [now apply SN|]. intros d' t' N'. apply (M d' t'). now apply SN.
  - rewrite B, B'; auto. intros d t N. apply (X d t). now apply SN.
Qed.
Print Assumptions sources_order_irrelevant.

(* ---- C128 ---- *)
(* Specification: the actions that only read, and the ones that a websocket connection is made for. *)
Definition only_reads (a : action) : Prop := a = ADownload \/ (exists l, a = AFeatures l) \/ a = AKnown \/ a = AInfo \/ a = AWait.
Definition by_websocket (a : action) : Prop := a = AIO true \/ exists pin f mt it, a = ACall true pin f mt it.

Lemma out_act o er a : o = Out er (Some a) -> act o = Some a. Proof. intros ->. reflexivity. Qed.
Lemma call_ws q k a : (forall f it, act (k f it) = Some a -> by_websocket a) -> act (callParams q k) = Some a -> by_websocket a.
Proof.
  intros K. unfold callParams, popFunction, popOptionalLastLogParam, popOptionalLastParam, popOptionalParams, noParams.
  repeat (match goal with |- act (match ?x with _ => _ end) = _ -> _ => destruct x | |- act ((if ?x then _ else _)) = _ -> _ => destruct x end; try discriminate; try apply K).
Qed.
Lemma get_act e q a : e = GetFeatures \/ e = GetKnown \/ e = GetSource \/ e = GetInstance -> act (handle e q) = Some a -> only_reads a \/ by_websocket a.
Proof.
  assert (W : forall q k, (forall f it, act (k f it) = Some a -> by_websocket a) -> act (callParams q k) = Some a -> only_reads a \/ by_websocket a)
    by (intros; right; eapply call_ws; eassumption).
  assert (V : forall pin f mt it, act (do_ (ACall true pin f mt it)) = Some a -> by_websocket a)
    by (intros pin f mt it H; injection H as <-; right; eauto 6).
  intros [->|[->|[->| ->]]]; cbn [handle].
  - unfold handleGetFeatures, popOptionalParams, noParams. destruct (del q "feature"); [|discriminate].
    destruct (features_level _ _); [|discriminate]. intros H. injection H as <-. left. right. left. eauto.
  - unfold handleGetKnownModule. destruct (popAction q "pin") as [pin q1]. destruct (popModTags pin q1) as [mt q2].
    destruct (has q2 "action").
    + unfold popLastParam. destruct (vals q2 "action") as [|v [|v' l]]; [destruct q; discriminate | | discriminate].
      destruct (String.eqb v "call"); [|discriminate]. apply W. intros f it. apply V.
    + destruct pin; [discriminate|]. unfold noParams. destruct q2; [|discriminate]. intros H. injection H as <-. left. left. reflexivity.
  - unfold handleGetModuleSource. destruct (popAction q "pin") as [pin q1]. destruct (popModTags pin q1) as [mt q2].
    unfold popLastParam. destruct (vals q2 "action") as [|v [|v' l]]; [destruct q; discriminate | | discriminate].
    destruct (String.eqb v "call"); [|discriminate]. apply W. intros f it. apply V.
  - unfold handleGetInstance, popLastParam. destruct (vals q "action") as [|v [|v' l]]; [destruct q; discriminate | | discriminate].
    destruct (String.eqb v "io"); [|discriminate]. unfold noParams. destruct (del q "action"); [|discriminate]. intros H. injection H as <-. right. left. reflexivity.
Qed.

(* A GET or HEAD request only reads, or is for a websocket connection. *)
Theorem get_requests_only_read : forall m path method q o a, method = "GET" \/ method = "HEAD" ->
  outcome_ (request m path method q) = Some o -> act o = Some a -> only_reads a \/ by_websocket a.
Proof.
  intros m path method q o a M H A. unfold request in H.
  destruct (locate m path); destruct M as [-> | ->]; cbn [serve is_get String.eqb Ascii.eqb Bool.eqb orb outcome_ act_ code list__] in H; try discriminate; try (destruct q; discriminate);
    injection H as <-; first [refine (get_act GetFeatures q a _ A); auto; fail | refine (get_act GetKnown q a _ A); auto; fail | refine (get_act GetSource q a _ A); auto; fail | refine (get_act GetInstance q a _ A); auto; fail].
Qed.
Print Assumptions get_requests_only_read.
(* HEAD is like GET. *)
Theorem head_is_get : forall m path q, request m path "HEAD" q = request m path "GET" q.
Proof. intros m path q. unfold request. destruct (locate m path); reflexivity. Qed.
Print Assumptions head_is_get.
(* Requests with other methods than GET, HEAD, PUT and POST do nothing, and PUT requests are only for known modules. *)
Theorem other_methods_do_nothing : forall m path method q, ~ In method ["GET"; "HEAD"; "POST"] ->
  (method = "PUT" -> forall key, locate m path <> TKnownModule key) ->
  outcome_ (request m path method q) = None /\ list_ (request m path method q) = None.
Proof.
  intros m path method q N K. unfold request.
  assert (G : is_get method = false).
  { unfold is_get. destruct (String.eqb_spec method "GET") as [->|]; [destruct N; cbn; auto|]. destruct (String.eqb_spec method "HEAD") as [->|]; [destruct N; cbn; auto | reflexivity]. }
  assert (PO : String.eqb method "POST" = false) by (apply String.eqb_neq; intros ->; apply N; cbn; auto).
  destruct (locate m path); cbn [serve]; rewrite ?G, ?PO; try (destruct (String.eqb method "OPTIONS")); try (split; reflexivity);
    destruct (String.eqb_spec method "PUT") as [->|]; try (split; reflexivity); destruct (K eq_refl key eq_refl).
Qed.
Print Assumptions other_methods_do_nothing.
(* Methods that aren't known at all are answered with 405, wherever there is something. *)
Theorem unsupported_methods_rejected : forall m path method q, ~ In method ["GET"; "HEAD"; "OPTIONS"; "POST"; "PUT"] ->
  locate m path = TNotFound \/ (exists l, locate m path = TMoved l) \/ exists l, request m path method q = Reply (Some 405%Z) (Some l) None None None.
Proof.
  intros m path method q N. unfold request.
  assert (F : forall x, In x ["GET"; "HEAD"; "OPTIONS"; "POST"; "PUT"] -> String.eqb method x = false) by (intros x I; apply String.eqb_neq; intros ->; auto).
  assert (G : is_get method = false) by (unfold is_get; rewrite !F; cbn; auto).
  assert (F1 : String.eqb method "OPTIONS" = false) by (apply F; cbn; auto 6).
  assert (F2 : String.eqb method "POST" = false) by (apply F; cbn; auto 6).
  assert (F3 : String.eqb method "PUT" = false) by (apply F; cbn; auto 6).
  destruct (locate m path); cbn [serve]; rewrite ?G, ?F1, ?F2, ?F3; first [left; reflexivity | right; left; eexists; reflexivity | right; right; eexists; reflexivity].
Qed.
Print Assumptions unsupported_methods_rejected.
Definition methods_of (t : target) : list string :=
  match t with
  | TKnownModules | TSource _ _ | TInstance _ => ["OPTIONS"; "POST"] | TKnownModule _ => ["OPTIONS"; "POST"; "PUT"] | _ => ["OPTIONS"]
  end.
Lemma allow_methods t method q l : allow (serve t method q) = Some l -> l = methods_of t /\ t <> TNotFound /\ (forall x, t <> TMoved x).
Proof.
  destruct t; cbn [serve];
    repeat match goal with |- context [if ?c then _ else _] => destruct c end;
    cbn [allow code act_ list__ setOptions respondMethodNotAllowed]; try discriminate; try (destruct q; discriminate);
    intros A; injection A as <-; split; try reflexivity; split; discriminate.
Qed.
(* The methods that are said to be allowed are. *)
Theorem allowed_methods_work : forall m path method q l x, allow (request m path method q) = Some l -> In x l ->
  forall q', status (request m path x q') <> Some 405%Z.
Proof.
  intros m path method q l x A I q'. unfold request in *. apply allow_methods in A as [-> [A1 A2]].
  destruct (locate m path); try contradiction; try (destruct (A2 _ eq_refl)); cbn [methods_of In] in I;
    repeat (destruct I as [<-|I]); try destruct I; cbn; try discriminate; destruct q'; discriminate.
Qed.
Print Assumptions allowed_methods_work.
(* They aren't all: GET is never mentioned, and neither is POST for listing instances. *)
Theorem allowed_methods_listed_refuted : forall m path, locate m path = TInstances -> exists l,
  allow (request m path "DELETE" []) = Some l /\ ~ In "GET" l /\ ~ In "POST" l /\
  status (request m path "GET" []) = Some 204%Z /\ list_ (request m path "POST" []) = Some LInstances.
Proof.
  intros m path E. exists ["OPTIONS"]. unfold request. rewrite E. cbn. repeat split; intros [H|[]]; discriminate.
Qed.
Print Assumptions allowed_methods_listed_refuted.
Definition act_of (r : reply) : option action := match outcome_ r with Some o => act o | None => None end.
Example ex_requests :
  act_of (request ex_mux "/p/gate-0/module/sha256/m" "GET" []) = Some ADownload /\
  act_of (request ex_mux "/p/gate-0/module/sha256/m" "GET" [("action", "call")]) = Some (ACall true false "" [] []) /\
  act_of (request ex_mux "/p/gate-0/module/sha256/m" "PUT" [("action", "pin")]) = Some (AUpload []) /\
  act_of (request ex_mux "/p/gate-0/instance/i" "POST" [("action", "delete")]) = Some ADelete /\
  allow (request ex_mux "/p/gate-0/instance/i" "DELETE" []) = Some ["OPTIONS"; "POST"] /\ locate ex_mux "/p/gate-0/instance/" = TInstances.
Proof. repeat split. Qed.
