(* ScopeProps.v: properties C39 (scope aliases) and C40 (SSH keys). *)
From Verif Require Import BaseLemmas ListLemmas Scope.

Lemma seqb_eq a : forall b, seqb a b = true <-> a = b.
Proof.
  induction a as [|x t IH]; intros [|y b]; cbn; split; try discriminate; try reflexivity; intros H.
  - apply andb_prop in H. destruct H as [H1 H2]. apply Z.eqb_eq in H1. apply IH in H2. congruence.
  - injection H as -> ->. rewrite Z.eqb_refl. now apply IH.
Qed.
Lemma seqb_refl a : seqb a a = true. Proof. now apply seqb_eq. Qed.
Lemma seqb_neq a b : a <> b -> seqb a b = false.
Proof. intros H. destruct (seqb a b) eqn:E; [|reflexivity]. apply seqb_eq in E. congruence. Qed.

(* Specification of the pattern: s = p ++ t where t is a nonempty string of alias
   characters that begins at a word boundary of s, and no shorter one does. *)
Definition last_word (p : str) : bool := match rev p with [] => false | c :: _ => word c end.
Definition first_word (t : str) : bool := match t with [] => false | c :: _ => word c end.
Definition candidate (s t : str) : Prop :=
  exists p, s = p ++ t /\ t <> [] /\ forallb alias_char t = true /\ last_word p <> first_word t.
Definition alias_spec (s a : str) : Prop :=
  candidate s a /\ forall t, candidate s t -> (length a <= length t)%nat.

Definition candidate_from (prev : bool) (s t : str) : Prop :=
  exists p, s = p ++ t /\ t <> [] /\ forallb alias_char t = true /\ (match p with [] => prev | _ => last_word p end) <> first_word t.

Lemma last_word_cons c p : last_word (c :: p) = match p with [] => word c | _ => last_word p end.
Proof.
  unfold last_word. cbn [rev]. destruct p as [|d p]; [reflexivity|]. destruct (rev (d :: p)) as [|e r] eqn:E.
  - apply (f_equal (@length Z)) in E. rewrite rev_length in E. discriminate.
  - reflexivity.
Qed.

Lemma candidate_from_cons prev c s t : candidate_from prev (c :: s) t <->
  (t = c :: s /\ forallb alias_char t = true /\ prev <> word c) \/ candidate_from (word c) s t.
Proof.
  split.
  - intros (p & E & NE & A & W). destruct p as [|d p].
    + left. cbn in E. subst t. auto.
    + right. cbn in E. injection E as <- ->. exists p. rewrite last_word_cons in W. auto.
  - intros [(-> & A & W)|(p & -> & NE & A & W)].
    + exists []. cbn. repeat split; auto. discriminate.
    + exists (c :: p). rewrite last_word_cons. auto.
Qed.

Lemma match_from_spec s : forall prev,
  (match_from prev s = [] -> forall t, ~ candidate_from prev s t) /\
  (match_from prev s <> [] -> candidate_from prev s (match_from prev s) /\ forall t, candidate_from prev s t -> (length (match_from prev s) <= length t)%nat).
Proof.
  induction s as [|c s IH]; intros prev; cbn [match_from].
  - split; [|congruence]. intros _ t (p & E & NE & _). destruct p, t; cbn in E; congruence.
  - destruct (IH (word c)) as [N S]. destruct (match_from (word c) s) as [|d m] eqn:M.
    + destruct (negb (eqb prev (word c)) && forallb alias_char (c :: s)) eqn:Q.
      * apply andb_prop in Q. destruct Q as [Q1 Q2]. split; [discriminate|]. intros _. split.
        -- apply candidate_from_cons. left. repeat split; auto. intros ->. rewrite eqb_reflx in Q1. discriminate.
        -- intros t H. apply candidate_from_cons in H. destruct H as [(-> & _)|H]; [lia|]. exfalso. exact (N eq_refl t H).
      * split; [|congruence]. intros _ t H. apply candidate_from_cons in H. destruct H as [(-> & A & W)|H]; [|exact (N eq_refl t H)].
        rewrite A, andb_true_r in Q. apply negb_false_iff in Q. apply eqb_prop in Q. congruence.
    + destruct (S ltac:(discriminate)) as [C L]. split; [discriminate|]. intros _. split; [apply candidate_from_cons; auto|].
      intros t H. apply candidate_from_cons in H. destruct H as [(-> & _)|H]; [|exact (L t H)].
      destruct C as (p & E & _). apply (f_equal (@length Z)) in E. rewrite app_length in E. cbn [length] in *. lia.
Qed.

Lemma candidate_iff s t : candidate s t <-> candidate_from false s t.
Proof. split; intros (p & E & NE & A & W); exists p; repeat split; auto; destruct p; exact W. Qed.

(* C39: an alias is what the documented pattern says. *)
Theorem match_alias_spec : forall s,
  (MatchAlias s = [] <-> forall t, ~ candidate s t) /\ (MatchAlias s <> [] <-> alias_spec s (MatchAlias s)).
Proof.
  intros s. destruct (match_from_spec s false) as [N S]. fold (MatchAlias s) in *. split; split.
  - intros E t C. apply candidate_iff in C. exact (N E t C).
  - intros H. destruct (MatchAlias s) as [|c m] eqn:M; [reflexivity|]. destruct (S ltac:(discriminate)) as [C _]. exfalso. apply (H _ (proj2 (candidate_iff _ _) C)).
  - intros H. destruct (S H) as [C L]. split; [now apply candidate_iff|]. intros t T. apply L. now apply candidate_iff.
  - intros [(p & _ & NE & _) _]. exact NE.
Qed.
Print Assumptions match_alias_spec.
(* program:system -> system; a:B -> none; x-y.z -> z; a-- -> -- *)
Example match_alias_example : MatchAlias system_scope = [115; 121; 115; 116; 101; 109] /\ MatchAlias [97; 58; 66] = [] /\
  MatchAlias [120; 45; 121; 46; 122] = [122] /\ MatchAlias [97; 45; 45] = [45; 45] /\ MatchAlias [45; 45] = [].
Proof. repeat split. Qed.

(* ---- ComputeAliases ---- *)
Lemma get_del_same m k : get (del m k) k = None.
Proof.
  induction m as [|[k' v] t IH]; cbn; [reflexivity|]. destruct (seqb k' k) eqn:E; cbn; [exact IH|]. now rewrite E.
Qed.
Lemma get_del_other m k j : j <> k -> get (del m k) j = get m j.
Proof.
  intros D. unfold del. induction m as [|[k' v] t IH]; cbn; [reflexivity|]. destruct (seqb k' k) eqn:E; cbn; [|rewrite IH; reflexivity].
  apply seqb_eq in E. subst k'. rewrite seqb_neq by congruence. exact IH.
Qed.
Lemma mem_In l k : mem l k = true <-> In k l.
Proof.
  unfold mem. rewrite existsb_exists. split; [intros (x & I & E); apply seqb_eq in E; now subst|]. intros I. exists k. split; [assumption|apply seqb_refl].
Qed.

(* how many elements of the list have alias a *)
Definition nalias (l : list str) (a : str) : nat := length (filter (fun s => seqb (MatchAlias s) a) l).

Lemma nalias_app l1 l2 a : nalias (l1 ++ l2) a = (nalias l1 a + nalias l2 a)%nat.
Proof. unfold nalias. rewrite filter_app, app_length. reflexivity. Qed.

Lemma alias_loop_spec : forall (scope seen : list str) (aliases : smap) (unalias : list str),
  (forall (a s : str), a <> [] -> get aliases a = Some s -> In s seen /\ MatchAlias s = a) ->
  (forall a : str, a <> [] -> get aliases a = None -> nalias seen a = O) ->
  (forall a : str, In a unalias <-> a <> [] /\ (2 <= nalias seen a)%nat) ->
  let r := alias_loop scope aliases unalias in
  (forall a s : str, a <> [] -> get (fst r) a = Some s -> In s (seen ++ scope) /\ MatchAlias s = a) /\
  (forall a : str, a <> [] -> get (fst r) a = None -> nalias (seen ++ scope) a = O) /\
  (forall a : str, In a (snd r) <-> a <> [] /\ (2 <= nalias (seen ++ scope) a)%nat).
Proof.
  induction scope as [|s t IH]; intros seen aliases unalias H1 H2 H3; cbn [alias_loop].
  - rewrite app_nil_r. cbn. auto.
  - assert (E : seen ++ s :: t = (seen ++ [s]) ++ t) by (rewrite <- app_assoc; reflexivity). rewrite E.
    assert (NA : forall a, nalias (seen ++ [s]) a = (nalias seen a + if seqb (MatchAlias s) a then 1 else 0)%nat).
    { intros a. rewrite nalias_app. unfold nalias at 2. cbn [filter]. destruct (seqb (MatchAlias s) a); cbn; lia. }
    destruct (MatchAlias s) as [|c m] eqn:M.
    + apply IH.
      * intros a x NE G. destruct (H1 a x NE G). split; [apply in_app_iff; auto|assumption].
      * intros a NE G. rewrite NA, seqb_neq by congruence. rewrite H2 by assumption. reflexivity.
      * intros a. rewrite H3, NA. split; intros [NE L]; (split; [assumption|]); rewrite seqb_neq in * by congruence; lia.
    + set (al := c :: m) in *. assert (NEal : al <> []) by discriminate.
      destruct (get aliases al) as [x|] eqn:G; apply IH.
      * intros a y NE Y. destruct (H1 a y NE Y). split; [apply in_app_iff; auto|assumption].
      * intros a NE Y. rewrite NA. rewrite seqb_neq by congruence. rewrite H2 by assumption. reflexivity.
      * intros a. cbn [In]. rewrite H3, NA. destruct (H1 al x NEal G) as [IX MX].
        assert (1 <= nalias seen al)%nat.
        { unfold nalias. assert (IF : In x (filter (fun s => seqb (MatchAlias s) al) seen)) by (apply filter_In; split; [assumption|rewrite MX; apply seqb_refl]).
          destruct (filter _ seen); [destruct IF|cbn; lia]. }
        destruct (seqb al a) eqn:Q.
        -- apply seqb_eq in Q. subst a. split; [intros _; split; [assumption|lia]|auto].
        -- split; [intros [->|[NE L]]; [rewrite seqb_refl in Q; discriminate|split; [assumption|lia]]|intros [NE L]; right; split; [assumption|lia]].
      * intros a y NE Y. cbn [get] in Y. destruct (seqb al a) eqn:Q.
        -- apply seqb_eq in Q. injection Y as <-. split; [apply in_app_iff; right; now left|congruence].
        -- destruct (H1 a y NE Y). split; [apply in_app_iff; auto|assumption].
      * intros a NE Y. cbn [get] in Y. rewrite NA. destruct (seqb al a) eqn:Q; [discriminate|]. rewrite H2 by assumption. reflexivity.
      * intros a. rewrite H3, NA. destruct (seqb al a) eqn:Q; [|split; intros [NE L]; split; auto; lia].
        apply seqb_eq in Q. subst a. rewrite (H2 al NEal G). split; intros [NE L]; lia.
Qed.

Lemma unalias_loop_spec : forall scope aliases unalias a,
  get (unalias_loop scope aliases unalias) a =
  if mem unalias a && existsb (fun s => seqb (MatchAlias s) a) scope then None else get aliases a.
Proof.
  induction scope as [|s t IH]; intros aliases unalias a; cbn [unalias_loop existsb].
  - now rewrite andb_false_r.
  - rewrite IH. destruct (mem unalias a) eqn:M; cbn [andb].
    + destruct (seqb (MatchAlias s) a) eqn:Q; cbn [orb].
      * apply seqb_eq in Q. rewrite Q, M. destruct (existsb _ t); [reflexivity|]. apply get_del_same.
      * destruct (existsb _ t); [reflexivity|]. destruct (mem unalias (MatchAlias s)); [|reflexivity]. apply get_del_other. intros ->. rewrite seqb_refl in Q. discriminate.
    + destruct (mem unalias (MatchAlias s)) eqn:M2; [|reflexivity]. apply get_del_other. intros ->. congruence.
Qed.

Lemma get_nil_none : forall scope, get (ComputeAliases scope) [] = None.
Proof.
  intros scope. unfold ComputeAliases. destruct (alias_loop scope [] []) as [m u] eqn:A. rewrite unalias_loop_spec.
  assert (G : forall l m u, get m [] = None -> get (fst (alias_loop l m u)) [] = None).
  { clear. induction l as [|s t IH]; intros m u H; cbn; [exact H|]. destruct (MatchAlias s) as [|c x]; [now apply IH|]. destruct (get m (c :: x)); apply IH; cbn; exact H. }
  specialize (G scope [] [] eq_refl). rewrite A in G. cbn [fst] in G. rewrite G. destruct (_ && _); reflexivity.
Qed.

(* C39: alias a resolves to s exactly if s is in the list, a is its alias, and it
   is the only one (counting repetitions) with that alias. *)
Theorem compute_aliases_unambiguous : forall (scope : list str) (a s : str),
  get (ComputeAliases scope) a = Some s <->
  a <> [] /\ filter (fun x => seqb (MatchAlias x) a) scope = [s].
Proof.
  intros scope a s. destruct a as [|c m] eqn:EA.
  { rewrite get_nil_none. split; [discriminate|]. intros [H _]. congruence. }
  rewrite <- EA. assert (NE : a <> []) by (rewrite EA; discriminate). clear EA c m. unfold ComputeAliases. destruct (alias_loop scope [] []) as [al un] eqn:A.
  destruct (alias_loop_spec scope [] [] (@nil str)) as (R1 & R2 & R3).
  { intros; discriminate. } { reflexivity. } { intros x. cbn. split; [tauto|]. intros [_ L]. lia. }
  rewrite A in R1, R2, R3. cbn [fst snd app] in *. rewrite unalias_loop_spec.
  assert (EX : existsb (fun s => seqb (MatchAlias s) a) scope = true <-> (1 <= nalias scope a)%nat).
  { unfold nalias. rewrite existsb_exists. split.
    - intros (x & I & E). assert (IF : In x (filter (fun s => seqb (MatchAlias s) a) scope)) by (apply filter_In; auto). destruct (filter _ scope); [destruct IF|cbn; lia].
    - intros L. destruct (filter (fun s => seqb (MatchAlias s) a) scope) as [|x f] eqn:F; [cbn in L; lia|]. assert (IF : In x (x :: f)) by now left. rewrite <- F in IF. apply filter_In in IF. eauto. }
  split.
  - intros G. split; [exact NE|]. destruct (mem un a && existsb _ scope) eqn:Q; [discriminate|].
    destruct (R1 a s NE G) as [I M]. assert (IF : In s (filter (fun x => seqb (MatchAlias x) a) scope)) by (apply filter_In; split; [assumption|rewrite M; apply seqb_refl]).
    destruct (filter (fun x => seqb (MatchAlias x) a) scope) as [|y [|z f]] eqn:F; [destruct IF|destruct IF as [->|[]]; reflexivity|].
    exfalso. assert (L : (2 <= nalias scope a)%nat) by (unfold nalias; rewrite F; cbn; lia).
    assert (T : mem un a = true) by (apply mem_In, R3; auto). rewrite T in Q. cbn [andb] in Q. rewrite (proj2 EX) in Q by lia. discriminate.
  - intros [_ F]. assert (L : nalias scope a = 1%nat) by (unfold nalias; now rewrite F).
    destruct (mem un a) eqn:M. { apply mem_In, R3 in M. lia. } cbn [andb].
    destruct (get al a) as [x|] eqn:G; [|apply R2 in G; [lia|assumption]].
    destruct (R1 a x NE G) as [I MX]. assert (IF : In x (filter (fun x => seqb (MatchAlias x) a) scope)) by (apply filter_In; split; [assumption|rewrite MX; apply seqb_refl]).
    rewrite F in IF. destruct IF as [->|[]]. reflexivity.
Qed.
Print Assumptions compute_aliases_unambiguous.
Definition raw_scope : str := [120; 58; 115; 121; 115; 116; 101; 109].   (* x:system *)
Example compute_aliases_example :
  get (ComputeAliases [system_scope]) [115; 121; 115; 116; 101; 109] = Some system_scope /\
  get (ComputeAliases [system_scope; raw_scope]) [115; 121; 115; 116; 101; 109] = None.
Proof. split; reflexivity. Qed.

(* Registered names are distinct; a repeated one panics (at program start). *)
Lemma registers_NoDup l : forall names names', NoDup names -> registers names l = Ok names' -> NoDup names' /\ (forall x, In x names' <-> In x names \/ In x l).
Proof.
  induction l as [|n t IH]; intros names names' N R; cbn [registers] in R.
  - injection R as <-. split; [assumption|]. cbn. tauto.
  - unfold Register in R. destruct (existsb (fun s => seqb s n) names) eqn:X; [discriminate|]. cbn [bind] in R.
    destruct (IH (names ++ [n]) names') as [A B]; [|exact R|].
    + apply NoDup_Add with (a := n) (l := names); [pose proof (Add_app n names []) as Q; now rewrite app_nil_r in Q|]. split; [assumption|].
      intros I. assert (T : existsb (fun s => seqb s n) names = true) by (apply existsb_exists; exists n; split; [assumption|apply seqb_refl]). congruence.
    + split; [exact A|]. intros x. rewrite B, in_app_iff. cbn. tauto.
Qed.

(* C39: what a context contains.  A scope is contained exactly if it was granted
   as such (unless what was granted is an alias of something else) or through
   its unambiguous alias. *)
Theorem context_contains_exact : forall l names ctx granted x,
  registers [] l = Ok names ->
  (ContextContains (Context names ctx granted) x = true <->
   exists s, In s granted /\
     ((s = x /\ forall y, get (ComputeAliases names) s <> Some y) \/
      (In x l /\ MatchAlias x = s /\ s <> [] /\ forall y, In y l -> MatchAlias y = s -> y = x))).
Proof.
  intros l names ctx granted x R. destruct (registers_NoDup l [] names (NoDup_nil _) R) as [ND IN].
  assert (IN' : forall y, In y names <-> In y l) by (intros y; rewrite IN; cbn; tauto).
  assert (C : ContextContains (Context names ctx granted) x = true <-> exists s, In s granted /\ Resolve names s = x).
  { unfold Context. destruct granted as [|g t].
    - destruct ctx; cbn; (split; [discriminate|intros (s & [] & _)]).
    - cbn [ContextContains]. rewrite existsb_exists. split.
      + intros (y & I & E). apply seqb_eq in E. subst y. apply in_map_iff in I. destruct I as (s & E & I). eauto.
      + intros (s & I & E). exists x. split; [apply in_map_iff; eauto|apply seqb_refl]. }
  assert (GS : forall s, get (ComputeAliases names) s = Some x <-> (In x l /\ MatchAlias x = s /\ s <> [] /\ forall y, In y l -> MatchAlias y = s -> y = x)).
  { intros s. rewrite compute_aliases_unambiguous. split.
    - intros [N F]. assert (I : In x [x]) by now left. rewrite <- F in I. apply filter_In in I. destruct I as [I M]. apply seqb_eq in M.
      repeat split; auto; [now apply IN'|]. intros y Y MY. assert (IY : In y (filter (fun x => seqb (MatchAlias x) s) names)) by (apply filter_In; split; [now apply IN'|rewrite MY; apply seqb_refl]).
      rewrite F in IY. now destruct IY as [->|[]].
    - intros (I & M & N & U). split; [exact N|]. apply IN' in I. clear - ND I M U IN'.
      assert (U' : forall y, In y names -> MatchAlias y = s -> y = x) by (intros y Y; apply U, IN'; exact Y). clear U IN'.
      induction names as [|n t IH]; [destruct I|]. cbn [filter]. inversion ND as [|? ? NI ND']; subst. destruct I as [<-|I].
      + rewrite seqb_refl. f_equal. destruct (filter (fun x0 => seqb (MatchAlias x0) (MatchAlias n)) t) as [|z f] eqn:F; [reflexivity|exfalso].
        assert (IZ : In z (z :: f)) by now left. rewrite <- F in IZ. apply filter_In in IZ. destruct IZ as [IZ MZ]. apply seqb_eq in MZ. rewrite (U' z (or_intror IZ) MZ) in IZ. contradiction.
      + rewrite seqb_neq; [apply IH; auto; intros y Y; apply U'; now right|]. intros MN. rewrite (U' n (or_introl eq_refl) MN) in NI. contradiction. }
  rewrite C. split; intros (s & I & H); exists s; (split; [exact I|]).
  - unfold Resolve in H. destruct (get (ComputeAliases names) s) as [y|] eqn:G; [right; subst y; now apply GS|left; split; [exact H|intros y; try rewrite G; discriminate]].
  - unfold Resolve. destruct H as [[-> N]|H]; [destruct (get (ComputeAliases names) x) as [y|] eqn:G; [exfalso; now apply (N y)|reflexivity]|]. rewrite (proj2 (GS s) H). reflexivity.
Qed.
Print Assumptions context_contains_exact.

(* C39: a registered scope granted by its full name is contained, if it contains a
   word character... *)
Lemma word_suffix_alias a : a <> [] -> forallb alias_char a = true -> forallb word a = true -> MatchAlias a = a.
Proof.
  intros NE A W. destruct (match_from_spec a false) as [N S]. fold (MatchAlias a) in *.
  destruct (MatchAlias a) as [|c m] eqn:M.
  - exfalso. apply (N eq_refl a). exists []. repeat split; auto. destruct a as [|x t]; [congruence|]. cbn in W |- *. apply andb_prop in W. destruct W as [-> _]. discriminate.
  - destruct (S ltac:(discriminate)) as [(p & E & NE2 & A2 & WB) _]. destruct p as [|d p]; [now symmetry|exfalso].
    apply WB. assert (FW : forall q, q <> [] -> forallb word q = true -> last_word q = true).
    { clear. intros q NE W. unfold last_word. destruct (rev q) as [|x r] eqn:R; [apply (f_equal (@rev Z)) in R; rewrite rev_involutive in R; cbn in R; congruence|].
      rewrite forallb_forall in W. apply W. apply in_rev. rewrite R. now left. }
    rewrite E, forallb_app in W. apply andb_prop in W. destruct W as [W1 W2].
    rewrite (FW (d :: p)) by (try discriminate; assumption). cbn. cbn in W2. apply andb_prop in W2. destruct W2 as [-> _]. reflexivity.
Qed.

Lemma alias_uniform s : forall prev, let a := match_from prev s in forallb word a = true \/ forallb (fun c => negb (word c)) a = true.
Proof.
  (* the shortest candidate has no boundary inside *)
  intros prev a. destruct (match_from_spec s prev) as [_ S]. fold a in S.
  destruct a as [|c m] eqn:EA; [left; reflexivity|]. destruct (S ltac:(discriminate)) as [(p & E & NE & A & W) L].
  destruct (word c) eqn:WC.
  - left. destruct (forallb word (c :: m)) eqn:Q; [reflexivity|exfalso].
    assert (X : exists u x v, c :: m = u ++ x :: v /\ u <> [] /\ forallb word u = true /\ word x = false).
    { clear - WC Q. assert (G : forall l, forallb word l = false -> exists u x v, l = u ++ x :: v /\ forallb word u = true /\ word x = false).
      { clear. induction l as [|y l IH]; intros H; [discriminate|]. cbn in H. destruct (word y) eqn:Y; [|exists [], y, l; auto].
        destruct (IH H) as (u & x & v & -> & U & X). exists (y :: u), x, v. cbn. rewrite Y. auto. }
      destruct (G _ Q) as (u & x & v & E & U & X). exists u, x, v. repeat split; auto. intros ->. cbn in E. injection E as -> ->. congruence. }
    destruct X as (u & x & v & EU & NU & WU & WX).
    specialize (L (x :: v)). rewrite EU, app_length in L. assert (length u <> O) by (destruct u; [congruence|discriminate]).
    assert (C : candidate_from prev s (x :: v)); [|apply L in C; cbn in *; lia].
    exists (p ++ u). split; [rewrite <- app_assoc, <- EU; exact E|]. split; [discriminate|]. split.
    { rewrite EU, forallb_app in A. apply andb_prop in A. apply A. }
    assert (LW : last_word (p ++ u) = true).
    { unfold last_word. rewrite rev_app_distr. destruct (rev u) as [|z r] eqn:R; [apply (f_equal (@rev Z)) in R; rewrite rev_involutive in R; cbn in R; congruence|].
      cbn. rewrite forallb_forall in WU. apply WU. apply in_rev. rewrite R. now left. }
    destruct (p ++ u) eqn:PU; [destruct p; [cbn in PU; congruence|discriminate]|]. rewrite LW. cbn. rewrite WX. discriminate.
  - right. destruct (forallb (fun c => negb (word c)) (c :: m)) eqn:Q; [reflexivity|exfalso].
    assert (X : exists u x v, c :: m = u ++ x :: v /\ u <> [] /\ forallb (fun c => negb (word c)) u = true /\ word x = true).
    { clear - WC Q. assert (G : forall l, forallb (fun c => negb (word c)) l = false -> exists u x v, l = u ++ x :: v /\ forallb (fun c => negb (word c)) u = true /\ word x = true).
      { clear. induction l as [|y l IH]; intros H; [discriminate|]. cbn in H. destruct (word y) eqn:Y; [exists [], y, l; auto|].
        destruct (IH H) as (u & x & v & -> & U & X). exists (y :: u), x, v. cbn. rewrite Y. auto. }
      destruct (G _ Q) as (u & x & v & E & U & X). exists u, x, v. repeat split; auto. intros ->. cbn in E. injection E as -> ->. congruence. }
    destruct X as (u & x & v & EU & NU & WU & WX).
    specialize (L (x :: v)). rewrite EU, app_length in L. assert (length u <> O) by (destruct u; [congruence|discriminate]).
    assert (C : candidate_from prev s (x :: v)); [|apply L in C; cbn in *; lia].
    exists (p ++ u). split; [rewrite <- app_assoc, <- EU; exact E|]. split; [discriminate|]. split.
    { rewrite EU, forallb_app in A. apply andb_prop in A. apply A. }
    assert (LW : last_word (p ++ u) = false).
    { unfold last_word. rewrite rev_app_distr. destruct (rev u) as [|z r] eqn:R; [apply (f_equal (@rev Z)) in R; rewrite rev_involutive in R; cbn in R; congruence|].
      cbn. rewrite forallb_forall in WU. apply negb_true_iff, WU. apply in_rev. rewrite R. now left. }
    destruct (p ++ u) eqn:PU; [destruct p; [cbn in PU; congruence|discriminate]|]. rewrite LW. cbn. rewrite WX. discriminate.
Qed.

Theorem full_name_granted_partial : forall l names ctx granted x,
  registers [] l = Ok names -> In x l -> In x granted -> existsb word x = true ->
  ContextContains (Context names ctx granted) x = true.
Proof.
  intros l names ctx granted x R I G W. assert (NE : granted <> []) by (intros ->; destruct G).
  apply (context_contains_exact l names ctx granted x R). exists x. split; [exact G|].
  destruct (get (ComputeAliases names) x) as [y|] eqn:E; [right|left; split; [reflexivity|intros y; discriminate]].
  destruct (registers_NoDup l [] names (NoDup_nil _) R) as [ND IN].
  pose proof E as E0. apply compute_aliases_unambiguous in E. destruct E as [NX F].
  assert (IY : In y [y]) by now left. rewrite <- F in IY. apply filter_In in IY. destruct IY as [IY MY]. apply seqb_eq in MY.
  (* x is an alias (of y), so it is made of word characters, and its own alias *)
  assert (MX : MatchAlias x = x).
  { destruct (match_from_spec y false) as [_ S]. fold (MatchAlias y) in S. rewrite MY in S. destruct (S NX) as [(p & _ & _ & A & _) _].
    apply word_suffix_alias; auto. pose proof (alias_uniform y false) as U. cbn zeta in U. change (match_from false y) with (MatchAlias y) in U. rewrite MY in U. destruct U as [U|U]; [exact U|exfalso].
    apply existsb_exists in W. destruct W as (c & C & WC). rewrite forallb_forall in U. specialize (U c C). rewrite WC in U. discriminate. }
  assert (XY : x = y). { assert (IX : In x (filter (fun z => seqb (MatchAlias z) x) names)) by (apply filter_In; split; [apply IN; now right|rewrite MX; apply seqb_refl]). rewrite F in IX. now destruct IX as [->|[]]. }
  subst y. repeat split; auto. intros z Z MZ.
  assert (IZ : In z (filter (fun z => seqb (MatchAlias z) x) names)) by (apply filter_In; split; [apply IN; now right|rewrite MZ; apply seqb_refl]).
  rewrite F in IZ. now destruct IZ as [->|[]].
Qed.
Print Assumptions full_name_granted_partial.
Example full_name_example : exists names, registers [] [raw_scope; system_scope] = Ok names /\
  ContextContains (Context names None [[115; 121; 115; 116; 101; 109]; system_scope]) system_scope = true /\
  ContextContains (Context names None [[115; 121; 115; 116; 101; 109]]) system_scope = false /\
  ContextContains (Context [system_scope] None [[115; 121; 115; 116; 101; 109]]) system_scope = true.
Proof. eexists. split; [vm_compute; reflexivity|]. repeat split. Qed.

(* ... but a name such as "--" is taken for the alias of a name such as "a--". *)
Theorem full_name_granted_refuted : exists l names x, registers [] l = Ok names /\ In x l /\
  ContextContains (Context names None [x]) x = false.
Proof. exists [[45; 45]; [97; 45; 45]]. eexists. exists [45; 45]. split; [vm_compute; reflexivity|]. split; [now left|reflexivity]. Qed.
Print Assumptions full_name_granted_refuted.

(* ---- C40 ---- *)

(* The ed25519 keys read from a file (up to the first error, and up to a key that
   another user has). *)
Fixpoint keys_of (text : list entry) : list bytes :=
  match text with
  | EKey k :: t => k :: keys_of t
  | EOther :: t => keys_of t
  | _ => []
  end.
Lemma kget_cons k u m k' : kget ((k, u) :: m) k' = if seqb k k' then Some u else kget m k'.
Proof. reflexivity. Qed.

Lemma Parse_spec text : forall m uid, let m' := fst (Parse m uid text) in
  (forall k u, kget m k = Some u -> kget m' k = Some u) /\
  (forall k u, kget m' k = Some u -> kget m k = Some u \/ (u = uid /\ In k (keys_of text))) /\
  (snd (Parse m uid text) = true -> (forall k, In k (keys_of text) -> kget m' k = Some uid) /\ ~ In EError text /\ ~ In EBadKey text).
Proof.
  induction text as [|e t IH]; intros m uid; cbn [Parse]; [cbn; split; [auto|split; [auto|split; [tauto|auto]]]|].
  destruct e as [k| | |]; cbn [keys_of].
  - destruct (kget m k) as [x|] eqn:G.
    + destruct (seqb x uid) eqn:Q.
      * apply seqb_eq in Q. subst x. destruct (IH ((k, uid) :: m) uid) as (A & B & C). cbn zeta in *. split; [|split].
        -- intros k' u H. apply A. rewrite kget_cons. destruct (seqb k k') eqn:E; [|exact H]. apply seqb_eq in E. subst k'. congruence.
        -- intros k' u H. destruct (B k' u H) as [H'|[-> H']]; [|right; cbn; auto]. rewrite kget_cons in H'. destruct (seqb k k') eqn:E; [|auto].
           apply seqb_eq in E. subst k'. left. congruence.
        -- intros H. destruct (C H) as (C1 & C2 & C3). split; [|split; intros [X|X]; (discriminate || contradiction)].
           intros k' [<-|I]; [|auto]. apply A. rewrite kget_cons, seqb_refl. reflexivity.
      * cbn. split; [auto|]. split; [auto|discriminate].
    + destruct (IH ((k, uid) :: m) uid) as (A & B & C). cbn zeta in *. split; [|split].
      * intros k' u H. apply A. rewrite kget_cons. destruct (seqb k k') eqn:E; [|exact H]. apply seqb_eq in E. subst k'. congruence.
      * intros k' u H. destruct (B k' u H) as [H'|[-> H']]; [|right; cbn; auto]. rewrite kget_cons in H'. destruct (seqb k k') eqn:E; [|auto].
        apply seqb_eq in E. subst k'. right. split; [congruence|now left].
      * intros H. destruct (C H) as (C1 & C2 & C3). split; [|split; intros [X|X]; (discriminate || contradiction)].
        intros k' [<-|I]; [|auto]. apply A. rewrite kget_cons, seqb_refl. reflexivity.
  - cbn. split; [auto|]. split; [auto|discriminate].
  - destruct (IH m uid) as (A & B & C). split; [exact A|]. split; [exact B|]. intros H. destruct (C H) as (C1 & C2 & C3). split; [exact C1|]. split; intros [X|X]; (discriminate || contradiction).
  - cbn. split; [auto|]. split; [auto|discriminate].
Qed.

(* C40: parsing never changes the user of a key known before. *)
Theorem sshkeys_first_uid_kept : forall m files k uid,
  kget m k = Some uid -> kget (ParseAll m files) k = Some uid.
Proof.
  intros m files. revert m. induction files as [|[u text] t IH]; intros m k uid H; cbn [ParseAll]; [exact H|]. apply IH.
  destruct (Parse_spec text m u) as (A & _). now apply A.
Qed.
Print Assumptions sshkeys_first_uid_kept.

(* C40: a principal is authorized only if its key is in some parsed file, and its
   user is that of the file. *)
Theorem sshkeys_authorized_only : forall files p ctx r,
  Authorize (ParseAll [] files) p ctx = Ok r ->
  p <> PNone /\ exists uid text, In (uid, text) files /\ In (raw p) (keys_of text) /\
    kget (ParseAll [] files) (raw p) = Some uid /\ r = (if ContextContains ctx system_scope then Some uid else None).
Proof.
  intros files p ctx r H. assert (G : forall fs m k u, kget (ParseAll m fs) k = Some u -> kget m k = Some u \/ exists text, In (u, text) fs /\ In k (keys_of text)).
  { clear. induction fs as [|[u0 text] t IH]; intros m k u H; cbn [ParseAll] in H; [auto|]. apply IH in H. destruct H as [H|(text' & I & K)]; [|right; exists text'; split; [now right|assumption]].
    destruct (Parse_spec text m u0) as (_ & B & _). destruct (B k u H) as [H'|[-> H']]; [auto|]. right. exists text. split; [now left|assumption]. }
  destruct p as [| |k]; [discriminate| |]; (split; [discriminate|]); cbn [Authorize] in H.
  - destruct (kget (ParseAll [] files) (raw PLocal)) as [uid|] eqn:K; [|discriminate]. injection H as <-. destruct (G _ _ _ _ K) as [X|(text & I & IK)]; [discriminate|]. exists uid, text. auto.
  - destruct (kget (ParseAll [] files) (raw (PKey k))) as [uid|] eqn:K; [|discriminate]. injection H as <-. destruct (G _ _ _ _ K) as [X|(text & I & IK)]; [discriminate|]. exists uid, text. auto.
Qed.
Print Assumptions sshkeys_authorized_only.

(* C40: each key of a file that was parsed without error is authorized, with the
   user of that file, whatever is parsed later. *)
Theorem sshkeys_authorized_all : forall before uid text after k ctx,
  snd (Parse (ParseAll [] before) uid text) = true -> In k (keys_of text) ->
  Authorize (ParseAll [] (before ++ (uid, text) :: after)) (PKey k) ctx
  = Ok (if ContextContains ctx system_scope then Some uid else None).
Proof.
  intros before uid text after k ctx H I. assert (App : forall a b m, ParseAll m (a ++ b) = ParseAll (ParseAll m a) b).
  { clear. induction a as [|[u t] a IH]; intros b m; cbn; [reflexivity|]. apply IH. }
  unfold Authorize. rewrite App. cbn [ParseAll raw]. destruct (Parse_spec text (ParseAll [] before) uid) as (_ & _ & C). destruct (C H) as (C1 & _).
  rewrite (sshkeys_first_uid_kept _ after _ uid (C1 k I)). reflexivity.
Qed.
Print Assumptions sshkeys_authorized_all.

(* C40: a key that another user has makes parsing fail. *)
Theorem sshkeys_conflict_rejected : forall m uid text k other,
  kget m k = Some other -> other <> uid -> In k (keys_of text) -> snd (Parse m uid text) = false.
Proof.
  intros m uid text k other G D I. destruct (snd (Parse m uid text)) eqn:S; [exfalso|reflexivity].
  destruct (Parse_spec text m uid) as (A & _ & C). destruct (C S) as (C1 & _). specialize (C1 k I). rewrite (A k other G) in C1. congruence.
Qed.
Print Assumptions sshkeys_conflict_rejected.

Example sshkeys_example :
  let files := [([97], [EKey [1]; EOther; EKey [2]]); ([98], [EKey [3]; EKey [2]; EKey [4]])] in
  let m := ParseAll [] files in
  map (kget m) [[1]; [2]; [3]; [4]] = [Some [97]; Some [97]; Some [98]; None] /\
  snd (Parse [] [97] [EKey [1]; EOther; EKey [2]]) = true /\
  Authorize m (PKey [2]) (Some [system_scope]) = Ok (Some [97]) /\ Authorize m (PKey [4]) None = Err.
Proof. repeat split. Qed.
