(* ContextProofs.v: lemmas about contexts. *)
From Verif Require Import ContextSpec.
From Coq Require Import Lia.
Local Open Scope nat_scope.

Lemma get_update h : forall p q f, get (update h p f) q = if Nat.eqb q p && Nat.ltb p (length h) then f (get h q) else get h q.
Proof.
  induction h as [|d t IH]; intros p q f; [destruct p, q; cbn; rewrite ?andb_false_r; reflexivity|].
  destruct p as [|p], q as [|q]; cbn; try reflexivity. unfold get in *. rewrite IH. reflexivity.
Qed.
Lemma length_update h : forall p f, length (update h p f) = length h.
Proof. induction h; intros [|p] f; cbn; auto. Qed.
Lemma get_app h d p : p < length h -> get (h ++ [d]) p = get h p.
Proof. intros. unfold get. apply app_nth1. assumption. Qed.
Lemma get_new h d : get (h ++ [d]) (length h) = d.
Proof. unfold get. rewrite app_nth2 by lia. rewrite Nat.sub_diag. reflexivity. Qed.

Definition valid (h : heap) (c : ctx) : Prop := forall p, c_detail c = Some p -> p < length h.

(* Every case of ContextDetail *)
Lemma detail_cases h c : valid h c -> let (h', p) := context_detail h c in
  (h' = h /\ c_detail c = Some p /\ p < length h) \/ (exists d, h' = h ++ [d] /\ p = length h).
Proof.
  intros V. unfold context_detail, alloc. destruct (c_detail c) as [p|] eqn:E; [|right; eauto].
  destruct (c_pri c) as [s|]; [destruct (negb _)|]; [right; eauto|left; auto|left; auto].
Qed.
Lemma derive_told f h c : valid h c -> (forall d, d_principal (f d) = d_principal d) ->
  let (h', c') := derive f h c in told h' c' = f (told h c) /\ valid h' c'.
Proof.
  intros V Hf. unfold derive, told. pose proof (detail_cases h c V) as D. destruct (context_detail h c) as [h1 p] eqn:E.
  assert (P : p < length h1) by (destruct D as [(-> & _ & L)|(d & -> & ->)]; [exact L|rewrite app_length; cbn; lia]).
  split; [|intros q [= <-]; rewrite length_update; exact P].
  assert (G : get (update h1 p f) p = f (get h1 p)).
  { rewrite get_update, Nat.eqb_refl. cbn [andb]. replace (p <? length h1) with true by (symmetry; apply Nat.ltb_lt; exact P). reflexivity. }
  unfold context_detail. cbn [c_detail c_pri]. rewrite G, Hf.
  destruct (c_pri c) as [s|] eqn:Es; [|exact G].
  assert (X : d_principal (get h1 p) = s).
  { unfold context_detail in E. rewrite Es in E. unfold alloc in E. destruct (c_detail c) as [q|].
    - destruct (String.eqb (d_principal (get h q)) s) eqn:Q; cbn [negb] in E; injection E as <- <-.
      + apply String.eqb_eq. exact Q.
      + rewrite get_new. reflexivity.
    - injection E as <- <-. rewrite get_new. reflexivity. }
  rewrite X, String.eqb_refl. exact G.
Qed.
Lemma set_principal_same d : set_principal (d_principal d) d = d.
Proof. destruct d; reflexivity. Qed.
Lemma told_eq h c : told h c = match c_detail c with Some p => get h p | None => no_detail end \/
  exists s, c_pri c = Some s /\ told h c = set_principal s (match c_detail c with Some p => get h p | None => no_detail end).
Proof.
  unfold told, context_detail, alloc. destruct (c_detail c) as [p|].
  - destruct (c_pri c) as [s|]; [|left; reflexivity]. destruct (negb _); [right; exists s; rewrite get_new; auto|left; reflexivity].
  - rewrite get_new. destruct (c_pri c) as [s|]; [right; eauto|left; reflexivity].
Qed.
Lemma principal_told h c s : told h (Ctx (Some s) (c_detail c)) = set_principal s (told h c).
Proof.
  assert (L : told h (Ctx (Some s) (c_detail c)) = set_principal s (match c_detail c with Some p => get h p | None => no_detail end)).
  { unfold told, context_detail, alloc. cbn [c_detail c_pri]. destruct (c_detail c) as [p|].
    - destruct (String.eqb (d_principal (get h p)) s) eqn:Q; cbn [negb]; [|apply get_new].
      apply String.eqb_eq in Q. rewrite <- Q. symmetry. apply set_principal_same.
    - apply get_new. }
  rewrite L. destruct (told_eq h c) as [-> |(s' & _ & ->)]; reflexivity.
Qed.
Lemma told_op h c : context_op h c = d_op (told h c).
Proof.
  unfold context_op. destruct (told_eq h c) as [-> |(s' & _ & ->)]; destruct (c_detail c); reflexivity.
Qed.
Lemma told_principal h c s : c_pri c = Some s -> d_principal (told h c) = s.
Proof.
  intros E. unfold told, context_detail, alloc. rewrite E. destruct (c_detail c) as [p|].
  - destruct (String.eqb (d_principal (get h p)) s) eqn:Q; cbn [negb]; [apply String.eqb_eq; exact Q|rewrite get_new; reflexivity].
  - rewrite get_new. reflexivity.
Qed.

(** ** Renamed pointers *)

Definition hrel (ren : list nat) (hs hg : heap) : Prop :=
  length ren = length hs /\ NoDup ren /\ forall p q, nth_error ren p = Some q -> q < length hg /\ get hs p = get hg q.
Definition crel (ren : list nat) (cs cg : ctx) : Prop :=
  c_pri cs = c_pri cg /\
  match c_detail cs, c_detail cg with None, None => True | Some p, Some q => nth_error ren p = Some q | _, _ => False end.
Definition erel (ren : list nat) (p q : nat) : Prop := nth_error ren p = Some q.
Definition srel (ren : list nat) (ss sg : session) : Prop :=
  Forall2 (crel ren) (contexts ss) (contexts sg) /\ Forall2 (erel ren) (events ss) (events sg).
Definition uses (s : session) (x : nat) : Prop := In x (events s) \/ exists c, In c (contexts s) /\ c_detail c = Some x.

Lemma nth_error_app_some {A} (l t : list A) n x : nth_error l n = Some x -> nth_error (l ++ t) n = Some x.
Proof. intros H. rewrite nth_error_app1; [exact H|]. apply nth_error_Some. congruence. Qed.
Lemma Forall2_impl {A B} (P Q : A -> B -> Prop) l l' : (forall a b, P a b -> Q a b) -> Forall2 P l l' -> Forall2 Q l l'.
Proof. intros H. induction 1; constructor; auto. Qed.
Lemma crel_app ren t a b : crel ren a b -> crel (ren ++ t) a b.
Proof.
  unfold crel. intros [H1 H2]. split; [exact H1|]. destruct (c_detail a), (c_detail b); auto. apply nth_error_app_some. exact H2.
Qed.
Lemma srel_app ren t a b : srel ren a b -> srel (ren ++ t) a b.
Proof.
  intros [H1 H2]. split; [eapply Forall2_impl; [|exact H1]; intros; apply crel_app; assumption|].
  eapply Forall2_impl; [|exact H2]. intros x y. apply nth_error_app_some.
Qed.
Lemma hrel_alloc ren hs hg d : hrel ren hs hg -> hrel (ren ++ [length hg]) (hs ++ [d]) (hg ++ [d]).
Proof.
  intros (H1 & H2 & H3). split; [rewrite !app_length; cbn; lia|]. split.
  - rewrite <- (rev_involutive (ren ++ _)), rev_app_distr. apply NoDup_rev. cbn [rev app]. constructor.
    + rewrite <- in_rev. intros I. apply In_nth_error in I. destruct I as [n I]. apply H3 in I. lia.
    + apply NoDup_rev. exact H2.
  - intros p q Hp. destruct (Nat.lt_ge_cases p (length ren)) as [L|L].
    + rewrite nth_error_app1 in Hp by exact L. destruct (H3 _ _ Hp) as [A B]. rewrite app_length. split; [cbn; lia|].
      rewrite !get_app by lia. exact B.
    + rewrite nth_error_app2 in Hp by exact L. destruct (p - length ren) as [|k] eqn:E; [|destruct k; discriminate Hp].
      injection Hp as <-. rewrite app_length. split; [cbn; lia|]. assert (p = length hs) by lia. subst p. rewrite !get_new. reflexivity.
Qed.
Lemma hrel_update ren hs hg p q f : hrel ren hs hg -> nth_error ren p = Some q -> hrel ren (update hs p f) (update hg q f).
Proof.
  intros (H1 & H2 & H3) Hp. split; [rewrite length_update; exact H1|]. split; [exact H2|].
  assert (PL : p < length hs) by (rewrite <- H1; apply nth_error_Some; congruence).
  destruct (H3 _ _ Hp) as [QL _].
  intros x y Hx. rewrite length_update. destruct (H3 _ _ Hx) as [A B]. split; [exact A|]. rewrite !get_update.
  replace (p <? length hs) with true by (symmetry; apply Nat.ltb_lt; exact PL). replace (q <? length hg) with true by (symmetry; apply Nat.ltb_lt; exact QL).
  rewrite !andb_true_r, B. destruct (Nat.eqb_spec x p) as [->|N].
  - rewrite Hp in Hx. injection Hx as ->. rewrite Nat.eqb_refl. reflexivity.
  - destruct (Nat.eqb_spec y q) as [->|]; [|reflexivity]. exfalso. apply N.
    apply (proj1 (NoDup_nth_error ren) H2); [apply nth_error_Some; congruence|congruence].
Qed.
Lemma hrel_elsewhere ren hs hg q f : hrel ren hs hg -> ~ In q ren -> hrel ren hs (update hg q f).
Proof.
  intros (H1 & H2 & H3) N. split; [exact H1|]. split; [exact H2|]. intros x y Hx. rewrite length_update, get_update.
  destruct (Nat.eqb_spec y q) as [->|]; [exfalso; apply N; eapply nth_error_In; exact Hx|]. apply H3. exact Hx.
Qed.
Lemma hrel_grow ren hs hg d : hrel ren hs hg -> hrel ren hs (hg ++ [d]).
Proof.
  intros (H1 & H2 & H3). split; [exact H1|]. split; [exact H2|]. intros x y Hx. destruct (H3 _ _ Hx). rewrite app_length, get_app by lia. split; [lia|assumption].
Qed.

(* ContextDetail does the same in both *)
Lemma detail_sim ren hs hg cs cg : hrel ren hs hg -> crel ren cs cg ->
  exists t hs' ps hg' pg, context_detail hs cs = (hs', ps) /\ context_detail hg cg = (hg', pg) /\
    hrel (ren ++ t) hs' hg' /\ nth_error (ren ++ t) ps = Some pg /\ (forall x, In x t -> length hg <= x) /\ length hg <= length hg'.
Proof.
  intros HR [C1 C2]. unfold context_detail. rewrite <- C1.
  assert (A : forall d, exists t hs' ps hg' pg, alloc hs d = (hs', ps) /\ alloc hg d = (hg', pg) /\ hrel (ren ++ t) hs' hg' /\
     nth_error (ren ++ t) ps = Some pg /\ (forall x, In x t -> length hg <= x) /\ length hg <= length hg').
  { intros d. exists [length hg]. do 4 eexists. split; [reflexivity|]. split; [reflexivity|]. split; [apply hrel_alloc; exact HR|].
    split; [|split; [intros x [<-|[]]; lia|rewrite app_length; lia]]. destruct HR as [L _]. rewrite nth_error_app2 by lia. rewrite L, Nat.sub_diag. reflexivity. }
  destruct (c_detail cs) as [p|], (c_detail cg) as [q|]; try contradiction; [|apply A].
  assert (S : exists t hs' ps hg' pg, (hs, p) = (hs', ps) /\ (hg, q) = (hg', pg) /\ hrel (ren ++ t) hs' hg' /\
     nth_error (ren ++ t) ps = Some pg /\ (forall x, In x t -> length hg <= x) /\ length hg <= length hg').
  { exists []. do 4 eexists. split; [reflexivity|]. split; [reflexivity|]. rewrite app_nil_r. split; [exact HR|]. split; [exact C2|]. split; [intros x []|lia]. }
  destruct (c_pri cs) as [s|]; [|exact S]. destruct HR as (H1 & H2 & H3). rewrite (proj2 (H3 _ _ C2)). destruct (negb _); [apply A|exact S].
Qed.
Lemma told_sim ren hs hg cs cg : hrel ren hs hg -> crel ren cs cg -> told hs cs = told hg cg.
Proof.
  intros HR HC. destruct (detail_sim _ _ _ _ _ HR HC) as (t & hs' & ps & hg' & pg & E1 & E2 & (_ & _ & H3) & N & _ & _). unfold told. rewrite E1, E2.
  apply H3. exact N.
Qed.
Lemma nth_ctx_sim ren ss sg n : srel ren ss sg ->
  match nth_ctx ss n, nth_ctx sg n with Some a, Some b => crel ren a b | None, None => True | _, _ => False end.
Proof.
  intros [H _]. unfold nth_ctx. assert (HR : Forall2 (crel ren) (rev (contexts ss)) (rev (contexts sg))).
  { induction H as [|a b l l' Hab Hl IH]; cbn; [constructor|]. apply Forall2_app; [exact IH|]. constructor; [exact Hab|constructor]. }
  revert HR. generalize (rev (contexts ss)) as l, (rev (contexts sg)) as l'. intros l l' HR. revert n.
  induction HR as [|a b l l' Hab Hl IH]; intros [|n]; cbn [nth_error]; [exact I|exact I|exact Hab|apply IH].
Qed.
(* An action of the request *)
Lemma act_sim a ren hs hg ss sg : hrel ren hs hg -> srel ren ss sg ->
  exists t, let (hs', ss') := act a hs ss in let (hg', sg') := act a hg sg in
    hrel (ren ++ t) hs' hg' /\ srel (ren ++ t) ss' sg' /\ (forall x, In x t -> length hg <= x) /\ length hg <= length hg'.
Proof.
  intros HR HS.
  assert (N : exists t, hrel (ren ++ t) hs hg /\ srel (ren ++ t) ss sg /\ (forall x, In x t -> length hg <= x) /\ length hg <= length hg).
  { exists []. rewrite app_nil_r. split; [exact HR|split; [exact HS|split; [intros x []|lia]]]. }
  assert (D : forall f n, exists t, let (hs', ss') := derives (derive f) n hs ss in let (hg', sg') := derives (derive f) n hg sg in
    hrel (ren ++ t) hs' hg' /\ srel (ren ++ t) ss' sg' /\ (forall x, In x t -> length hg <= x) /\ length hg <= length hg').
  { intros f n. unfold derives. pose proof (nth_ctx_sim ren ss sg n HS) as HC. destruct (nth_ctx ss n) as [cs|], (nth_ctx sg n) as [cg|]; try contradiction; [|exact N].
    destruct (detail_sim _ _ _ _ _ HR HC) as (t & hs' & ps & hg' & pg & E1 & E2 & H & HN & HT & HG). exists t. unfold derive. rewrite E1, E2.
    split; [apply hrel_update; assumption|]. split; [|split; [exact HT|rewrite length_update; exact HG]].
    destruct (srel_app ren t _ _ HS) as [S1 S2]. split; cbn [contexts events]; [|exact S2]. constructor; [|exact S1].
    split; [apply HC|exact HN]. }
  destruct a as [n v|n r s|n v|n|n s|n]; cbn [act]; try apply D.
  - unfold derives. pose proof (nth_ctx_sim ren ss sg n HS) as HC. destruct (nth_ctx ss n) as [cs|], (nth_ctx sg n) as [cg|]; try contradiction; [|exact N].
    exists []. cbn [with_principal]. rewrite app_nil_r. split; [exact HR|]. split; [|split; [intros x []|lia]]. destruct HS as [S1 S2]. split; cbn [contexts events]; [|exact S2].
    constructor; [|exact S1]. split; [reflexivity|]. apply HC.
  - pose proof (nth_ctx_sim ren ss sg n HS) as HC. destruct (nth_ctx ss n) as [cs|], (nth_ctx sg n) as [cg|]; try contradiction; [|exact N].
    destruct (detail_sim _ _ _ _ _ HR HC) as (t & hs' & ps & hg' & pg & E1 & E2 & H & HN & HT & HG). exists t. rewrite E1, E2.
    split; [exact H|]. split; [|split; [exact HT|exact HG]]. destruct (srel_app ren t _ _ HS) as [S1 S2]. split; cbn [contexts events]; [exact S1|]. constructor; [exact HN|exact S2].
Qed.
Lemma nth_ctx_uses s n c p : nth_ctx s n = Some c -> c_detail c = Some p -> uses s p.
Proof. intros H Hp. right. exists c. split; [|exact Hp]. apply nth_error_In in H. apply in_rev in H. exact H. Qed.
(* An action of another *)
Lemma act_other a ren hs hg s : hrel ren hs hg -> (forall x, uses s x -> x < length hg /\ ~ In x ren) ->
  let (hg', s') := act a hg s in hrel ren hs hg' /\ (forall x, uses s' x -> x < length hg' /\ ~ In x ren) /\ length hg <= length hg'.
Proof.
  intros HR HU.
  assert (NR : ~ In (length hg) ren).
  { intros I. apply In_nth_error in I. destruct I as [n I]. apply HR in I. lia. }
  assert (D : forall n c, nth_ctx s n = Some c -> let (h', p) := context_detail hg c in
     hrel ren hs h' /\ p < length h' /\ ~ In p ren /\ length hg <= length h').
  { intros n c Hc. assert (V : valid hg c) by (intros p Hp; apply HU; eapply nth_ctx_uses; eassumption).
    pose proof (detail_cases hg c V) as C. destruct (context_detail hg c) as [h' p]. destruct C as [(-> & E & L)|(d & -> & ->)].
    - split; [exact HR|]. split; [exact L|]. split; [|lia]. apply HU. eapply nth_ctx_uses; eassumption.
    - split; [apply hrel_grow; exact HR|]. rewrite app_length. cbn [length]. split; [lia|]. split; [exact NR|lia]. }
  assert (N : hrel ren hs hg /\ (forall x, uses s x -> x < length hg /\ ~ In x ren) /\ length hg <= length hg) by auto.
  assert (E : forall f n, let (hg', s') := derives (derive f) n hg s in hrel ren hs hg' /\ (forall x, uses s' x -> x < length hg' /\ ~ In x ren) /\ length hg <= length hg').
  { intros f n. unfold derives. destruct (nth_ctx s n) as [c|] eqn:Hc; [|exact N]. specialize (D n c Hc). unfold derive. destruct (context_detail hg c) as [h' p].
    destruct D as (D1 & D2 & D3 & D4). split; [apply hrel_elsewhere; assumption|]. rewrite length_update. split; [|exact D4].
    intros x [Hx|(c' & [<-|Hc'] & Hx)]; cbn [contexts events c_detail] in *.
    - destruct (HU x (or_introl Hx)). split; [lia|assumption].
    - injection Hx as <-. auto.
    - destruct (HU x). { right. eauto. } split; [lia|assumption]. }
  destruct a as [n v|n r0 s0|n v|n|n s0|n]; cbn [act]; try apply E.
  - unfold derives. destruct (nth_ctx s n) as [c|] eqn:Hc; [|exact N]. cbn [with_principal]. split; [exact HR|]. split; [|lia].
    intros x [Hx|(c' & [<-|Hc'] & Hx)]; cbn [contexts events c_detail] in *; apply HU; [left; exact Hx|eapply nth_ctx_uses; eassumption|right; eauto].
  - destruct (nth_ctx s n) as [c|] eqn:Hc; [|exact N]. specialize (D n c Hc). destruct (context_detail hg c) as [h' p].
    destruct D as (D1 & D2 & D3 & D4). split; [exact D1|]. split; [|exact D4].
    intros x [[<-|Hx]|(c' & Hc' & Hx)]; cbn [contexts events c_detail] in *; [auto| |];
      (destruct (HU x) as [U1 U2]; [unfold uses; eauto|]; split; [lia|exact U2]).
Qed.

Definition rel (r : nat) (gs gg : state) : Prop := exists ren, hrel ren (s_heap gs) (s_heap gg) /\ srel ren (s_requests gs r) (s_requests gg r) /\
  forall q, q <> r -> forall x, uses (s_requests gg q) x -> x < length (s_heap gg) /\ ~ In x ren.
Lemma step_rel r x gs gg : rel r gs gg -> rel r (if Nat.eqb (fst x) r then step x gs else gs) (step x gg).
Proof.
  destruct x as [k a]. intros (ren & HR & HS & HU). cbn [fst]. unfold step. cbn [fst snd]. destruct (Nat.eqb_spec k r) as [->|N].
  - destruct (act_sim a ren _ _ _ _ HR HS) as (t & H). destruct (act a (s_heap gs) _) as [hs ss]. destruct (act a (s_heap gg) _) as [hg sg].
    destruct H as (H1 & H2 & H3 & H4). exists (ren ++ t). cbn [s_heap s_requests]. split; [exact H1|]. unfold put. rewrite Nat.eqb_refl. split; [exact H2|].
    intros q Hq x Hx. destruct (Nat.eqb_spec q r) as [|_]; [contradiction|]. destruct (HU q Hq x Hx) as [U1 U2]. split; [lia|].
    rewrite in_app_iff. intros [I|I]; [contradiction|]. apply H3 in I. lia.
  - pose proof (act_other a ren _ _ (s_requests gg k) HR (HU k N)) as H. destruct (act a (s_heap gg) _) as [hg sg]. destruct H as (H1 & H2 & H3).
    exists ren. cbn [s_heap s_requests]. split; [exact H1|]. unfold put. split; [destruct (Nat.eqb_spec r k); [congruence|exact HS]|].
    intros q Hq x Hx. destruct (Nat.eqb_spec q k) as [->|]; [apply H2; exact Hx|]. destruct (HU q Hq x Hx). split; [lia|assumption].
Qed.
Lemma run_rel r l : forall gs gg, rel r gs gg -> rel r (run (of_request r l) gs) (run l gg).
Proof.
  induction l as [|x t IH]; intros gs gg H; [exact H|]. cbn [of_request filter]. apply (step_rel r x) in H.
  unfold run in *. cbn [fold_left]. destruct (Nat.eqb (fst x) r); cbn [fold_left]; apply IH; exact H.
Qed.
Lemma rel_view r gs gg : rel r gs gg -> view gs r = view gg r.
Proof.
  intros (ren & HR & (S1 & S2) & _). unfold view. f_equal.
  - induction S1 as [|a b l l' H Hl IH]; [reflexivity|]. cbn [map]. rewrite (told_sim _ _ _ _ _ HR H), IH. f_equal. f_equal. apply H.
  - induction S2 as [|a b l l' H Hl IH]; [reflexivity|]. cbn [map]. rewrite IH. f_equal. apply HR. exact H.
Qed.
Lemma rel_fresh r base : rel r (fresh base) (fresh base).
Proof.
  exists []. cbn. split; [split; [reflexivity|split; [constructor|intros [|p] q H; discriminate H]]|]. split.
  - split; cbn; constructor; [|constructor]. split; [reflexivity|exact I].
  - intros q _ x [[]|(c & [<-|[]] & H)]. discriminate H.
Qed.

(** ** One request, one context after another *)

Lemma linear_act a h s c t n : contexts s = c :: t -> n = length t -> target a = n -> valid h c ->
  let (h', s') := act a h s in exists c' t', contexts s' = c' :: t' /\ told h' c' = meant a (told h c) /\ valid h' c' /\
    length t' = match a with Report _ => n | _ => S n end.
Proof.
  intros HC Hn HT V.
  assert (NC : nth_ctx s (target a) = Some c).
  { unfold nth_ctx. rewrite HC. cbn [rev]. rewrite HT, Hn. rewrite nth_error_app2 by (rewrite rev_length; lia). rewrite rev_length, Nat.sub_diag. reflexivity. }
  assert (D : forall f, (forall d, d_principal (f d) = d_principal d) -> let (h', s') := derives (derive f) (target a) h s in
    exists c' t', contexts s' = c' :: t' /\ told h' c' = f (told h c) /\ valid h' c' /\ length t' = S n).
  { intros f Hf. unfold derives. rewrite NC. pose proof (derive_told f h c V Hf) as E. destruct (derive f h c) as [h' c']. destruct E as [E1 E2].
    exists c', (contexts s). split; [reflexivity|]. split; [exact E1|]. split; [exact E2|]. rewrite HC. cbn. lia. }
  destruct a as [k v|k r0 s0|k v|k|k s0|k]; cbn [act meant target] in *; try (apply D; reflexivity).
  - unfold derives. rewrite NC. cbn [with_principal]. do 2 eexists. split; [reflexivity|]. split; [apply principal_told|]. split; [exact V|]. rewrite HC. cbn. lia.
  - rewrite NC. pose proof (detail_cases h c V) as C. unfold told. destruct (context_detail h c) as [h' p] eqn:E. exists c, t. split; [exact HC|].
    destruct C as [(-> & Ep & L)|(d & -> & ->)].
    + rewrite E. split; [reflexivity|]. split; [exact V|lia].
    + assert (V' : valid (h ++ [d]) c) by (intros q Hq; apply V in Hq; rewrite app_length; lia).
      split; [|split; [exact V'|lia]]. rewrite get_new. revert E. unfold context_detail, alloc. destruct (c_detail c) as [q|] eqn:Eq.
      * pose proof (V q Eq) as Q. rewrite (get_app h d q Q). destruct (c_pri c) as [s1|].
        -- destruct (negb _); intros [= E]; [rewrite get_new|]; [apply app_inj_tail in E; apply E|].
           exfalso. apply (f_equal (@length _)) in E. rewrite app_length in E. cbn in E. lia.
        -- intros [= E]. exfalso. apply (f_equal (@length _)) in E. rewrite app_length in E. cbn in E. lia.
      * intros [= E]. apply app_inj_tail in E. rewrite get_new. apply E.
Qed.
