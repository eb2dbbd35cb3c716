(* HeadersProps.v: C143. *)
From Verif Require Import Headers.
From Coq Require Import Lia.

(* ---- Specification: the elements of comma-separated lists, and media types without parameters ---- *)
Definition space (c : Z) : Prop := 9 <= c <= 13 \/ c = 32.
(* f is one of the elements of the list h *)
Definition element (h f : bytes) : Prop :=
  ~ In 44 f /\ exists a b, h = a ++ f ++ b /\ (a = [] \/ exists a', a = a' ++ [44]) /\ (b = [] \/ exists b', b = 44 :: b').
(* t is x without the spaces around it *)
Definition stripped (x t : bytes) : Prop :=
  exists a b, x = a ++ t ++ b /\ Forall space a /\ Forall space b /\
  (forall c r, t = c :: r -> ~ space c) /\ (forall c r, t = r ++ [c] -> ~ space c).
(* f is the media type t, possibly with parameters *)
Definition typed (f t : bytes) : Prop :=
  exists x p, f = x ++ p /\ ~ In 59 x /\ (p = [] \/ exists p', p = 59 :: p') /\ stripped x t.
(* The Accept headers allow one of the types *)
Definition allows (types : list bytes) (acc : list bytes) : Prop :=
  acc = [] \/ exists h f t, In h acc /\ element h f /\ typed f t /\ In t types.

(* ---- Lemmas ---- *)
Lemma text_eqb_eq a b : text_eqb a b = true <-> a = b.
Proof. unfold text_eqb. destruct (list_eq_dec Z.eq_dec a b); split; congruence. Qed.

Lemma is_space_iff c : is_space c = true <-> space c.
Proof. unfold is_space, space. rewrite orb_true_iff, andb_true_iff, !Z.leb_le, Z.eqb_eq. tauto. Qed.

Lemma split_on_cons_head sep s : exists p r, split_on sep s = p :: r.
Proof. induction s as [|c s IH]; simpl; [eauto|]. destruct (c =? sep); [eauto|]. destruct IH as (p & r & ->). eauto. Qed.

Lemma split_on_app a b : split_on 44 (a ++ 44 :: b) = split_on 44 a ++ split_on 44 b.
Proof.
  induction a as [|c a IH]; cbn [app split_on]; [reflexivity|]. rewrite IH. destruct (c =? 44); [reflexivity|].
  destruct (split_on_cons_head 44 a) as (p & r & ->). reflexivity.
Qed.
Lemma split_on_whole f : ~ In 44 f -> split_on 44 f = [f].
Proof.
  induction f as [|c f IH]; intro N; cbn [split_on]; [reflexivity|]. destruct (Z.eqb_spec c 44) as [-> | _]; [exfalso; apply N; now left|].
  rewrite IH; [reflexivity|]. intro; apply N; now right.
Qed.
Lemma split_on_parts h : forall p r, split_on 44 h = p :: r ->
  (~ In 44 p /\ exists b, h = p ++ b /\ (b = [] \/ exists b', b = 44 :: b')) /\
  (forall f, In f r -> ~ In 44 f /\ exists a b, h = (a ++ [44]) ++ f ++ b /\ (b = [] \/ exists b', b = 44 :: b')).
Proof.
  induction h as [|c h IH]; simpl; intros p r E.
  - injection E as <- <-. split; [split; [easy|]; exists []; auto|easy].
  - destruct (Z.eqb_spec c 44) as [-> | N].
    + injection E as <- <-. split; [split; [easy|]; exists (44 :: h); eauto|].
      intros f Hf. destruct (split_on_cons_head 44 h) as (p & r & E). rewrite E in Hf. destruct (IH _ _ E) as ((P1 & b & P2 & P3) & R).
      destruct Hf as [<- | Hf].
      * split; [assumption|]. exists [], b. simpl. rewrite <- P2. auto.
      * destruct (R f Hf) as (Q1 & a & b' & Q2 & Q3). split; [assumption|]. exists (44 :: a), b'. split; [|assumption]. cbn [app]. cbn [app] in Q2. now rewrite <- Q2.
    + destruct (split_on_cons_head 44 h) as (p' & r' & E'). rewrite E' in E. injection E as <- <-. destruct (IH _ _ E') as ((P1 & b & P2 & P3) & R).
      split.
      * split; [intros [X | X]; [congruence|auto]|]. exists b. split; [|assumption]. cbn [app]. now rewrite <- P2.
      * intros f Hf. destruct (R f Hf) as (Q1 & a & b' & Q2 & Q3). split; [assumption|]. exists (c :: a), b'. split; [|assumption].
        cbn [app]. cbn [app] in Q2. now rewrite <- Q2.
Qed.
Lemma split_on_spec h f : In f (split_on 44 h) <-> element h f.
Proof.
  split.
  - intro Hf. destruct (split_on_cons_head 44 h) as (p & r & E). rewrite E in Hf. destruct (split_on_parts _ _ _ E) as ((P1 & b & P2 & P3) & R).
    destruct Hf as [<- | Hf].
    + split; [assumption|]. exists [], b. auto.
    + destruct (R f Hf) as (Q1 & a & b' & Q2 & Q3). split; [assumption|]. exists (a ++ [44]), b'. eauto.
  - intros (N & a & b & -> & A & B).
    assert (H0 : In f (split_on 44 (f ++ b))).
    { destruct B as [-> | (b' & ->)]; [rewrite app_nil_r|rewrite split_on_app; apply in_or_app; left]; rewrite split_on_whole; simpl; auto. }
    destruct A as [-> | (a' & ->)]; [assumption|]. rewrite <- app_assoc. cbn [app]. rewrite split_on_app. apply in_or_app. now right.
Qed.

Lemma trim_left_spaces a x : Forall space a -> trim_left (a ++ x) = trim_left x.
Proof. induction 1 as [|c a H _ IH]; [reflexivity|]. cbn [app trim_left]. apply is_space_iff in H. now rewrite H. Qed.
Lemma trim_left_first x : (forall c r, x = c :: r -> ~ space c) -> trim_left x = x.
Proof.
  destruct x as [|c r]; [reflexivity|]. intro H. cbn [trim_left]. destruct (is_space c) eqn:E; [|reflexivity].
  exfalso. apply (H c r eq_refl). now apply is_space_iff.
Qed.
Lemma trim_left_split x : exists a, x = a ++ trim_left x /\ Forall space a /\ (forall c r, trim_left x = c :: r -> ~ space c).
Proof.
  induction x as [|c x (a & E & A & H)]; [exists []; split; [reflexivity|split; [constructor|discriminate]]|].
  cbn [trim_left]. destruct (is_space c) eqn:S.
  - exists (c :: a). split; [cbn [app]; now rewrite <- E|]. split; [|assumption]. constructor; [now apply is_space_iff|assumption].
  - exists []. split; [reflexivity|]. split; [constructor|]. intros c' r E' Hc. injection E' as <- <-. apply is_space_iff in Hc. congruence.
Qed.
Lemma trim_spec x t : trim_space x = t <-> stripped x t.
Proof.
  split.
  - intros <-. unfold trim_space. destruct (trim_left_split x) as (a & E & A & H). set (y := trim_left x) in *.
    destruct (trim_left_split (rev y)) as (b & E' & B & H'). set (z := trim_left (rev y)) in *.
    assert (Y : y = rev z ++ rev b) by (rewrite <- (rev_involutive y), E', rev_app_distr; reflexivity).
    exists a, (rev b). rewrite <- Y. split; [assumption|]. split; [assumption|]. split; [now apply Forall_rev|]. split.
    + intros c r Er. rewrite Er in Y. exact (H c (r ++ rev b) Y).
    + intros c r Er. apply (H' c (rev r)). rewrite <- (rev_involutive z), Er, rev_app_distr. reflexivity.
  - intros (a & b & -> & A & B & F & L). unfold trim_space. rewrite (trim_left_spaces _ _ A).
    destruct t as [|c r].
    + cbn [app]. assert (E : trim_left b = []) by (rewrite <- (app_nil_r b), (trim_left_spaces _ _ B); reflexivity). rewrite E. reflexivity.
    + rewrite (trim_left_first ((c :: r) ++ b)); [|intros c' r' E; injection E as <- <-; exact (F c r eq_refl)].
      rewrite rev_app_distr, (trim_left_spaces _ _ (Forall_rev B)), trim_left_first, rev_involutive; [reflexivity|].
      intros c' r' E. apply (L c' (rev r')). rewrite <- (rev_involutive (c :: r)), E. reflexivity.
Qed.

Lemma before_split f : exists p, f = before 59 f ++ p /\ ~ In 59 (before 59 f) /\ (p = [] \/ exists p', p = 59 :: p').
Proof.
  induction f as [|c f (p & E & N & P)]; [exists []; simpl; auto|]. cbn [before]. destruct (Z.eqb_spec c 59) as [-> | Nc].
  - exists (59 :: f). split; [reflexivity|]. split; [easy|]. eauto.
  - exists p. split; [cbn [app]; now rewrite <- E|]. split; [|assumption]. intros [X | X]; [congruence|auto].
Qed.
Lemma before_unique x p : ~ In 59 x -> (p = [] \/ exists p', p = 59 :: p') -> before 59 (x ++ p) = x.
Proof.
  intros N P. induction x as [|c x IH].
  - destruct P as [-> | (p' & ->)]; reflexivity.
  - cbn [app before]. destruct (Z.eqb_spec c 59) as [-> | _]; [exfalso; apply N; now left|]. f_equal. apply IH. intro; apply N; now right.
Qed.
Lemma media_type_spec f t : media_type f = t <-> typed f t.
Proof.
  unfold media_type, semicolon. split.
  - intro E. destruct (before_split f) as (p & F & N & P). exists (before 59 f), p. split; [assumption|]. split; [assumption|]. split; [assumption|]. now apply trim_spec.
  - intros (x & p & -> & N & P & S). rewrite before_unique; auto. now apply trim_spec.
Qed.

(* ---- Accept ---- *)
Theorem accept_exact types acc : accepts types acc = true <-> allows types acc.
Proof.
  unfold accepts, allows, mentions. destruct acc as [|h0 acc0]; [split; auto|]. remember (h0 :: acc0) as acc eqn:E. split.
  - intro H. right. apply existsb_exists in H. destruct H as (h & Hh & H). apply existsb_exists in H. destruct H as (f & Hf & H).
    apply existsb_exists in H. destruct H as (t & Ht & H). apply text_eqb_eq in H. exists h, f, t.
    split; [assumption|]. split; [now apply split_on_spec|]. split; [now apply media_type_spec|assumption].
  - intros [X | (h & f & t & Hh & Hf & H & Ht)]; [subst; discriminate|]. apply existsb_exists. exists h. split; [assumption|].
    apply existsb_exists. exists f. split; [now apply split_on_spec|]. apply existsb_exists. exists t. split; [assumption|].
    apply text_eqb_eq. now apply media_type_spec.
Qed.

(* The wildcard, the types with a wildcard, and the types of the API's content, as text *)
From Coq Require Import Ascii String.
Definition codes (s : string) : bytes := map (fun c => Z.of_nat (nat_of_ascii c)) (list_ascii_of_string s).
Local Open Scope string_scope.
Local Open Scope list_scope.
Local Open Scope Z_scope.
Local Notation length := List.length.

(* A request is refused with status 406, 415, 411, 413 or 400 because of its headers exactly in these cases *)
Definition wants (o : operation) : option string :=   (* the type which the client must accept *)
  match o with
  | GetStatic | GetFeatures true | ListModules | GetModuleInfo | ListInstances | GetInstanceInfo => Some "application/json"
  | DownloadModule => Some "application/wasm"
  | _ => None
  end.
Definition content (o : operation) : option string := (* the type which the request's content must have *)
  match o with PutModule => Some "application/wasm" | UpdateInstance | DebugInstance => Some "application/json" | _ => None end.
Definition empty (o : operation) : Prop := o = ListModules \/ o = ListInstances.

Definition acceptable (o : operation) (h : headers) : Prop :=
  forall t, wants o = Some t -> allows [codes t; codes "*/*"; codes "application/*"] (accept h).
Definition well_typed (o : operation) (h : headers) : Prop :=
  (forall t, content o = Some t -> exists v, content_type h = [v] /\ typed v (codes t)) /\ (empty o -> content_type h = []).
Definition well_sized (o : operation) (h : headers) : Prop :=
  (o = PutModule -> 0 <= content_length h) /\ (empty o -> content_length h = 0).

Lemma must_accept t h : mustAccept (codes t) h = None <-> allows [codes t; codes "*/*"; codes "application/*"] (accept h).
Proof.
  unfold mustAccept, acceptsApplication. change [codes t; any_any; application_any] with [codes t; codes "*/*"; codes "application/*"].
  rewrite <- accept_exact. destruct (accepts _ _); split; congruence.
Qed.
Lemma must_type t h : mustHaveContentType (codes t) h = None <-> exists v, content_type h = [v] /\ typed v (codes t).
Proof.
  unfold mustHaveContentType. destruct (content_type h) as [|v [|v' l]].
  - split; [discriminate|]. intros (v & E & _). discriminate.
  - destruct (text_eqb (media_type v) (codes t)) eqn:E.
    + apply text_eqb_eq, media_type_spec in E. split; eauto.
    + split; [discriminate|]. intros (v' & X & T). injection X as <-. apply media_type_spec, text_eqb_eq in T. congruence.
  - split; [discriminate|]. intros (w & E & _). discriminate.
Qed.
Lemma must_length h : mustHaveContentLength h = None <-> 0 <= content_length h.
Proof. unfold mustHaveContentLength. destruct (Z.ltb_spec (content_length h) 0); split; try discriminate; try reflexivity; lia. Qed.
Lemma must_not_type h : mustNotHaveContentType h = None <-> content_type h = [].
Proof. unfold mustNotHaveContentType. destruct (content_type h); split; congruence. Qed.
Lemma must_not_content h : mustNotHaveContent h = None <-> content_length h = 0.
Proof. unfold mustNotHaveContent. destruct (Z.eqb_spec (content_length h) 0); split; congruence. Qed.
Lemma first_of_none l : first_of l = None <-> Forall (fun x => x = None) l.
Proof. induction l as [|[x|] l IH]; simpl; [split; auto| |]; [split; [discriminate|intro H; inversion H; discriminate]|]. rewrite IH. split; [auto|intro H; now inversion H]. Qed.

Theorem admitted_exactly o h : refusal o h = None <-> acceptable o h /\ well_typed o h /\ well_sized o h.
Proof.
  assert (J : application_json = codes "application/json") by reflexivity.
  assert (W : application_wasm = codes "application/wasm") by reflexivity.
  unfold acceptable, well_typed, well_sized, empty.
  assert (L : forall a b c : option Z, first_of [a; b; c] = None <-> a = None /\ b = None /\ c = None).
  { intros [a|] [b|] [c|]; simpl; repeat split; intuition congruence. }
  assert (L2 : forall a b : option Z, first_of [a; b] = None <-> a = None /\ b = None).
  { intros [a|] [b|]; simpl; repeat split; intuition congruence. }
  assert (L1 : forall a : option Z, first_of [a] = None <-> a = None).
  { intros [a|]; simpl; tauto. }
  destruct o as [|[|]| | | | | | | |]; cbn [refusal wants content]; rewrite ?L, ?L2, ?L1, ?J, ?W, ?must_accept, ?must_type, ?must_length, ?must_not_type, ?must_not_content.
  all: split.
  all: try (intros (_ & (B & _) & _); exact (B _ eq_refl)).
  all: try (intros (_ & (B & _) & (C & _)); exact (conj (B _ eq_refl) (C eq_refl))).
  all: try (intros (A & B & C)); try (intros (A & B)); try intro A.
  all: repeat split.
  all: try (intros t E; discriminate E).
  all: try (intros t E; injection E as <-).
  all: try discriminate.
  all: try (intros [E | E]; discriminate).
  all: try (intros _).
  all: try assumption.
  all: try reflexivity.
  all: try tauto.
  all: try (exact (A _ eq_refl)).
  all: try (exact (proj1 B _ eq_refl)).
  all: try (apply B; now auto).
  all: try (apply C; now auto).
  all: exists A; split; assumption.
Qed.

(* Why a request is refused *)
Theorem refused_why o h s : refusal o h = Some s ->
  (s = 406 /\ ~ acceptable o h) \/
  (s = 415 /\ (length (content_type h) <= 1)%nat /\ ~ well_typed o h) \/
  (s = 400 /\ (2 <= length (content_type h))%nat /\ content o <> None) \/
  (s = 411 /\ content_length h < 0 /\ o = PutModule) \/
  (s = 413 /\ content_length h <> 0 /\ empty o) \/
  (s = 415 /\ content_type h <> [] /\ empty o).
Proof.
  assert (MA : forall t, mustAccept (codes t) h = Some s -> s = 406 /\ ~ allows [codes t; codes "*/*"; codes "application/*"] (accept h)).
  { intros t H. split; [unfold mustAccept in H; destruct (acceptsApplication _ _); congruence|]. intro X. apply must_accept in X. congruence. }
  assert (MT : forall t, mustHaveContentType (codes t) h = Some s ->
    (s = 415 /\ (length (content_type h) <= 1)%nat /\ ~ exists v, content_type h = [v] /\ typed v (codes t)) \/ (s = 400 /\ (2 <= length (content_type h))%nat)).
  { intros t H. pose proof H as H'. unfold mustHaveContentType in H. destruct (content_type h) as [|v [|v' l]] eqn:E.
    - left. injection H as <-. split; [reflexivity|]. split; [simpl; lia|]. intros (w & Ew & Tw). assert (X : exists v, content_type h = [v] /\ typed v (codes t)) by (exists w; split; [congruence|assumption]). apply must_type in X. congruence.
    - left. split; [destruct (text_eqb _ _); congruence|]. split; [simpl; lia|]. intros (w & Ew & Tw). assert (X : exists v, content_type h = [v] /\ typed v (codes t)) by (exists w; split; [congruence|assumption]). apply must_type in X. congruence.
    - right. injection H as <-. split; [reflexivity|]. simpl. lia. }
  assert (ML : mustHaveContentLength h = Some s -> s = 411 /\ content_length h < 0).
  { unfold mustHaveContentLength. destruct (Z.ltb_spec (content_length h) 0); intro HH; [split; congruence|discriminate]. }
  assert (NT : mustNotHaveContentType h = Some s -> s = 415 /\ content_type h <> []).
  { unfold mustNotHaveContentType. destruct (content_type h); intro HH; [discriminate|split; congruence]. }
  assert (NC : mustNotHaveContent h = Some s -> s = 413 /\ content_length h <> 0).
  { unfold mustNotHaveContent. destruct (Z.eqb_spec (content_length h) 0); intro HH; [discriminate|split; congruence]. }
  assert (F1 : forall a : option Z, first_of [a] = Some s -> a = Some s) by (intros [a|]; simpl; congruence).
  assert (F2 : forall a b : option Z, first_of [a; b] = Some s -> a = Some s \/ b = Some s) by (intros [a|] [b|]; simpl; intuition congruence).
  assert (F3 : forall a b c : option Z, first_of [a; b; c] = Some s -> a = Some s \/ b = Some s \/ c = Some s) by (intros [a|] [b|] [c|]; simpl; intuition congruence).
  assert (A : forall t, wants o = Some t -> mustAccept (codes t) h = Some s -> s = 406 /\ ~ acceptable o h).
  { intros t W H. destruct (MA t H) as (X & Y). split; [assumption|]. intro Z. exact (Y (Z t W)). }
  assert (T : forall t, content o = Some t -> mustHaveContentType (codes t) h = Some s ->
    (s = 415 /\ (length (content_type h) <= 1)%nat /\ ~ well_typed o h) \/ (s = 400 /\ (2 <= length (content_type h))%nat /\ content o <> None)).
  { intros t W H. destruct (MT t H) as [(X & X' & Y) | (X & Y)]; [left; split; [assumption|]; split; [assumption|]; intros (Z & _); exact (Y (Z t W))|right].
    split; [assumption|]. split; [assumption|congruence]. }
  intro H. unfold empty.
  assert (P : forall t, wants o = Some t -> first_of [mustAccept (codes t) h] = Some s -> s = 406 /\ ~ acceptable o h).
  { intros t W X. exact (A t W (F1 _ X)). }
  assert (Q : forall t, content o = Some t -> first_of [mustHaveContentType (codes t) h] = Some s ->
    (s = 415 /\ (length (content_type h) <= 1)%nat /\ ~ well_typed o h) \/ (s = 400 /\ (2 <= length (content_type h))%nat /\ content o <> None)).
  { intros t W X. exact (T t W (F1 _ X)). }
  assert (R : forall t, wants o = Some t -> empty o -> first_of [mustNotHaveContentType h; mustNotHaveContent h; mustAccept (codes t) h] = Some s ->
    (s = 406 /\ ~ acceptable o h) \/ (s = 413 /\ content_length h <> 0 /\ empty o) \/ (s = 415 /\ content_type h <> [] /\ empty o)).
  { intros t W E X. apply F3 in X. destruct X as [X | [X | X]].
    - right. right. destruct (NT X). auto.
    - right. left. destruct (NC X). auto.
    - left. exact (A t W X). }
  destruct o as [|[|]| | | | | | | |]; try discriminate.
  - left. exact (P "application/json" eq_refl H).
  - left. exact (P "application/json" eq_refl H).
  - left. exact (P "application/wasm" eq_refl H).
  - destruct (R "application/json" eq_refl (or_introl eq_refl) H) as [X | [X | X]]; auto 8.
  - cbn [refusal] in H. apply F2 in H. destruct H as [X | X].
    + destruct (T "application/wasm" eq_refl X) as [Y | Y]; auto 8.
    + destruct (ML X). auto 8.
  - left. exact (P "application/json" eq_refl H).
  - destruct (R "application/json" eq_refl (or_intror eq_refl) H) as [X | [X | X]]; auto 8.
  - left. exact (P "application/json" eq_refl H).
  - destruct (Q "application/json" eq_refl H) as [Y | Y]; auto 8.
  - destruct (Q "application/json" eq_refl H) as [Y | Y]; auto 8.
Qed.

(* The content of a successful response is acceptable to the client, except for debugging and for the plain list of features *)
Theorem response_acceptable_partial o h t : refusal o h = None -> response_type o h = Some t ->
  o <> DebugInstance -> o <> GetFeatures false -> allows [t; codes "*/*"; codes "application/*"] (accept h).
Proof.
  intros R T N1 N2. apply admitted_exactly in R. destruct R as (A & _). unfold acceptable in A.
  destruct o as [|[|]| | | | | | | |]; try congruence; cbn [response_type wants] in *.
  all: try (injection T as <-; exact (A _ eq_refl)).
  - discriminate.
  - destruct (acceptsJSON (accept h)) eqn:E; [|discriminate]. injection T as <-. apply accept_exact in E.
    destruct E as [E | (x & f & t & Hx & Hf & Ht & Hin)]; [now left|]. right. exists x, f, t. split; [assumption|]. split; [assumption|]. split; [assumption|].
    simpl in Hin |- *. tauto.
Qed.
(* These two don't look at the Accept header: whatever it is, the content is JSON *)
Theorem response_unacceptable_refuted acc :
  let get := Headers acc [] 0 [] in
  let post := Headers acc [codes "application/json"] 2 [] in
  refusal (GetFeatures false) get = None /\ response_type (GetFeatures false) get = Some (codes "application/json") /\
  refusal DebugInstance post = None /\ response_type DebugInstance post = Some (codes "application/json").
Proof. repeat split; reflexivity. Qed.
(* An update answers without content if JSON isn't accepted *)
Theorem update_content h : response_type UpdateInstance h = None <-> ~ allows [codes "*/*"; codes "application/json"; codes "application/*"] (accept h).
Proof.
  cbn [response_type]. rewrite <- accept_exact. change (accepts _ _) with (acceptsJSON (accept h)). destruct (acceptsJSON (accept h)); split; congruence.
Qed.
(* The text of a refusal is there if and only if it's acceptable *)
Theorem error_text h : (allows [codes "*/*"; codes "text/plain"; codes "text/*"] (accept h) -> error_type h = Some (codes "text/plain")) /\
  (~ allows [codes "*/*"; codes "text/plain"; codes "text/*"] (accept h) -> error_type h = None).
Proof.
  rewrite <- accept_exact. unfold error_type. change (accepts _ (accept h)) with (acceptsText (accept h)).
  destruct (acceptsText (accept h)); split; intro H; try reflexivity; congruence.
Qed.
(* A weight of zero, with which a client says that it doesn't accept a type, is taken for acceptance; types aren't compared regardless of case *)
Theorem weight_refuted rest : refusal GetModuleInfo (Headers [codes "application/json;q=0" ++ codes "," ++ rest] [] 0 []) = None.
Proof.
  apply admitted_exactly. split; [|split; split; try discriminate; intros [E | E]; discriminate].
  intros t E. injection E as <-. right. exists (codes "application/json;q=0" ++ codes "," ++ rest), (codes "application/json;q=0"), (codes "application/json").
  split; [now left|]. split.
  - split; [intro H; repeat (destruct H as [H | H]; [discriminate H|]); exact H|]. exists [], (codes "," ++ rest). split; [reflexivity|]. split; [now left|]. right. exists rest. reflexivity.
  - split; [now apply media_type_spec|now left].
Qed.
Theorem case_refuted : refusal GetModuleInfo (Headers [codes "Application/JSON"] [] 0 []) = Some 406 /\
  refusal UpdateInstance (Headers [] [codes "Application/JSON"] 2 []) = Some 415.
Proof. split; reflexivity. Qed.

(* ---- Trailers ---- *)
Lemma lower_space c : is_space (lower c) = is_space c.
Proof.
  unfold lower. destruct ((65 <=? c) && (c <=? 90)) eqn:E; [|reflexivity]. apply andb_true_iff in E. rewrite !Z.leb_le in E. unfold is_space.
  replace (c + 32 <=? 13) with false by (symmetry; apply Z.leb_gt; lia). replace (c <=? 13) with false by (symmetry; apply Z.leb_gt; lia).
  replace (c + 32 =? 32) with false by (symmetry; apply Z.eqb_neq; lia). replace (c =? 32) with false by (symmetry; apply Z.eqb_neq; lia).
  now rewrite !andb_false_r.
Qed.
Lemma lower_comma c : (lower c =? 44) = (c =? 44).
Proof.
  unfold lower. destruct ((65 <=? c) && (c <=? 90)) eqn:E; [|reflexivity]. apply andb_true_iff in E. rewrite !Z.leb_le in E.
  replace (c + 32 =? 44) with false by (symmetry; apply Z.eqb_neq; lia). symmetry. apply Z.eqb_neq. lia.
Qed.
Lemma split_lower s : split_on 44 (map lower s) = map (map lower) (split_on 44 s).
Proof.
  induction s as [|c s IH]; [reflexivity|]. cbn [map split_on]. rewrite lower_comma, IH. destruct (c =? 44); [reflexivity|].
  destruct (split_on_cons_head 44 s) as (p & r & ->). reflexivity.
Qed.
Lemma trim_left_lower s : trim_left (map lower s) = map lower (trim_left s).
Proof. induction s as [|c s IH]; [reflexivity|]. cbn [map trim_left]. rewrite lower_space. destruct (is_space c); [assumption|reflexivity]. Qed.
Lemma trim_lower s : trim_space (map lower s) = map lower (trim_space s).
Proof. unfold trim_space. now rewrite trim_left_lower, <- map_rev, trim_left_lower, <- map_rev. Qed.

Definition same_letters (a b : bytes) : Prop :=   (* regardless of case *)
  Forall2 (fun x y => x = y \/ (65 <= x <= 90 /\ y = x + 32)) a b.
Lemma lower_letters a b : Forall (fun c => 97 <= c <= 122) b -> (map lower a = b <-> same_letters a b).
Proof.
  intro B. split.
  - intros <-. induction a as [|c a IH]; [constructor|]. cbn [map] in *. inversion_clear B as [|? ? Hc Ha]. constructor; [|now apply IH].
    unfold lower in *. destruct ((65 <=? c) && (c <=? 90)) eqn:E; [|now left]. apply andb_true_iff in E. rewrite !Z.leb_le in E. right. split; [lia|reflexivity].
  - intro H. induction H as [|x y a b H _ IH]; [reflexivity|]. inversion_clear B as [|? ? Hy Hb]. cbn [map]. rewrite (IH Hb). f_equal. unfold lower.
    destruct H as [-> | (H & ->)].
    + replace (y <=? 90) with false by (symmetry; apply Z.leb_gt; lia). now rewrite andb_false_r.
    + replace (65 <=? x) with true by (symmetry; apply Z.leb_le; lia). replace (x <=? 90) with true by (symmetry; apply Z.leb_le; lia). reflexivity.
Qed.
(* Trailers are sent if and only if an element of a TE header is "trailers", regardless of case *)
Theorem trailers_exact te : acceptsTrailers te = true <->
  exists h f x, In h te /\ element h f /\ stripped f x /\ same_letters x (codes "trailers").
Proof.
  assert (W : Forall (fun c => 97 <= c <= 122) (codes "trailers")) by (repeat constructor; vm_compute; congruence).
  unfold acceptsTrailers. split.
  - intro H. apply existsb_exists in H. destruct H as (h & Hh & H). apply existsb_exists in H. destruct H as (f' & Hf & H).
    change comma with 44 in Hf. rewrite split_lower in Hf. apply in_map_iff in Hf. destruct Hf as (f & <- & Hf). rewrite trim_lower in H. apply text_eqb_eq in H.
    exists h, f, (trim_space f). split; [assumption|]. split; [now apply split_on_spec|]. split; [now apply trim_spec|]. now apply lower_letters.
  - intros (h & f & x & Hh & Hf & Hx & H). apply existsb_exists. exists h. split; [assumption|]. change comma with 44. rewrite split_lower.
    apply existsb_exists. exists (map lower f). split; [apply in_map; now apply split_on_spec|]. rewrite trim_lower. apply trim_spec in Hx. rewrite Hx.
    apply text_eqb_eq. now apply lower_letters.
Qed.

(* ---- The front handler ---- *)
Lemma has_prefix_spec p s : has_prefix p s = true <-> exists r, s = p ++ r.
Proof.
  revert s. induction p as [|x p IH]; intro s; [split; [exists s; reflexivity|reflexivity]|]. destruct s as [|y s]; [split; [discriminate|intros (r & E); discriminate]|].
  cbn [has_prefix app]. rewrite andb_true_iff, Z.eqb_eq, IH. split.
  - intros (-> & r & ->). eauto.
  - intros (r & E). injection E as -> ->. eauto.
Qed.
(* Only encrypted requests reach the API, and exactly those whose paths are beneath it *)
Theorem front_api secure i m path acc : front secure i m path acc = Api <-> secure = true /\ exists r, path = codes "/gate-0/" ++ r.
Proof.
  assert (E : api_path = codes "/gate-0/") by reflexivity. rewrite <- E. rewrite <- has_prefix_spec. unfold front, writeResponse.
  destruct (has_prefix api_path path), secure; cbn; split; try tauto; try discriminate; try (intros (? & ?); discriminate).
  all: destruct ((i_status i =? 404) || _); try discriminate; destruct m; discriminate.
Qed.
Theorem front_plain i m path acc : (exists r, path = codes "/gate-0/" ++ r) -> exists t, front false i m path acc = Answer 421 None t.
Proof.
  intro H. apply has_prefix_spec in H. change (codes "/gate-0/") with api_path in H. unfold front, writeResponse. rewrite H. eauto.
Qed.
(* Other paths: only the root exists, if it's configured, for GET and HEAD; nothing else shows the location *)
Theorem front_other secure i m path acc : ~ (exists r, path = codes "/gate-0/" ++ r) -> exists s l t, front secure i m path acc = Answer s l t /\
  (path = codes "/" -> i_status i <> 404 -> m = GET \/ m = HEAD ->
     s = i_status i /\ t = None /\ l = match i_location i with [] => None | x => Some x end) /\
  (path = codes "/" -> i_status i <> 404 -> m = OtherMethod -> s = 405 /\ l = None /\ t = None) /\
  (path <> codes "/" \/ i_status i = 404 -> s = 404 /\ l = None /\
     (t = Some (codes "text/plain") <-> allows [codes "*/*"; codes "text/plain"; codes "text/*"] acc)).
Proof.
  intro N. change (codes "/gate-0/") with api_path in N. rewrite <- has_prefix_spec in N. unfold front, writeResponse.
  destruct (has_prefix api_path path); [exfalso; now apply N|]. change (codes "/") with [slash].
  pose proof (accept_exact [codes "*/*"; codes "text/plain"; codes "text/*"] acc) as AE.
  change (accepts [codes "*/*"; codes "text/plain"; codes "text/*"] acc) with (acceptsText acc) in AE.
  destruct (Z.eqb_spec (i_status i) 404) as [E | E]; [cbn [orb]|destruct (text_eqb path [slash]) eqn:P; cbn [orb negb]].
  - eexists _, _, _. split; [reflexivity|]. split; [congruence|]. split; [congruence|]. intros _. split; [reflexivity|]. split; [reflexivity|].
    rewrite <- AE; destruct (acceptsText acc); split; intro; try reflexivity; discriminate.
  - apply text_eqb_eq in P. destruct m; (eexists _, _, _; split; [reflexivity|]); (split; [intros _ _ [X | X]; try discriminate; auto|]);
      (split; [intros _ _ X; try discriminate; auto|]); intros [X | X]; congruence.
  - assert (P' : path <> [slash]) by (intro X; apply text_eqb_eq in X; congruence).
    eexists _, _, _. split; [reflexivity|]. split; [congruence|]. split; [congruence|]. intros _. split; [reflexivity|]. split; [reflexivity|].
    rewrite <- AE; destruct (acceptsText acc); split; intro; try reflexivity; discriminate.
Qed.

(* Non-vacuity *)
Example get_ok : refusal GetModuleInfo (Headers [codes "text/html, application/json; q=0.5"] [] 0 []) = None. Proof. reflexivity. Qed.
Example get_bad : refusal GetModuleInfo (Headers [codes "text/html"; codes "application/wasm"] [] 0 []) = Some 406. Proof. reflexivity. Qed.
Example put_ok : refusal PutModule (Headers [] [codes " application/wasm ;x=y"] 5 []) = None. Proof. reflexivity. Qed.
Example put_stream : refusal PutModule (Headers [] [codes "application/wasm"] (-1) []) = Some 411. Proof. reflexivity. Qed.
Example list_chunked : refusal ListInstances (Headers [] [] (-1) []) = Some 413. Proof. reflexivity. Qed.
Example two_types : refusal PutModule (Headers [] [codes "application/wasm"; codes "application/wasm"] 5 []) = Some 400. Proof. reflexivity. Qed.
Example te1 : acceptsTrailers [codes "deflate, Trailers "] = true. Proof. reflexivity. Qed.
Example te2 : acceptsTrailers [codes "trailers;q=1"] = false. Proof. reflexivity. Qed.
Example front1 : front true (Index 404 []) GET (codes "/gate-0/module") [] = Api. Proof. reflexivity. Qed.
Example front2 : front true (Index 302 (codes "x")) HEAD (codes "/") [] = Answer 302 (Some (codes "x")) None. Proof. reflexivity. Qed.
Example front3 : front true (Index 200 []) GET (codes "/gate-0") [codes "image/*"] = Answer 404 None None. Proof. reflexivity. Qed.

Print Assumptions admitted_exactly.
Print Assumptions refused_why.
Print Assumptions accept_exact.
Print Assumptions response_acceptable_partial.
Print Assumptions response_unacceptable_refuted.
Print Assumptions update_content.
Print Assumptions error_text.
Print Assumptions weight_refuted.
Print Assumptions case_refuted.
Print Assumptions trailers_exact.
Print Assumptions front_api.
Print Assumptions front_plain.
Print Assumptions front_other.
