(* ClientAuthProps.v: the client's requests reach the server at its address, with a token that it accepts (C135). *)
From Verif Require Import Auth AuthSpec AuthProofs AuthProps ClientAuth.
From Coq Require Import String Ascii Permutation.
Local Notation length := List.length.

(* ---- Specification: addresses ---- *)
(* A name of a host, or an IPv4 address: letters, digits, hyphens, dots *)
Definition name_char (c : Z) : Prop := 97 <= c <= 122 \/ 65 <= c <= 90 \/ 48 <= c <= 57 \/ c = 45 \/ c = 46.
Definition host_name (h : bytes) : Prop := h <> [] /\ Forall name_char h.
Definition port_number (p : bytes) : Prop := p <> [] /\ Forall (fun c => 48 <= c <= 57) p.
Inductive authority : bytes -> Prop :=
| A_host h : host_name h -> authority h
| A_port h p : host_name h -> port_number p -> authority (h ++ [58] ++ p).
(* A path without a slash at the end: segments of unreserved characters *)
Definition path_char (c : Z) : Prop := name_char c \/ c = 95 \/ c = 126.
Inductive prefix : bytes -> Prop :=
| P_none : prefix []
| P_seg s p : s <> [] -> Forall path_char s -> prefix p -> prefix ([47] ++ s ++ p).
(* Where a server is, and its identity *)
Definition web_scheme (s : bytes) : Prop := s = bs "http" \/ s = bs "https".
Definition server_identity (s a p : bytes) : bytes := s ++ bs "://" ++ a ++ p ++ bs "/gate-0/".
(* The address forms of the client's usage text: scheme://host, scheme://host:port, host (with a path prefix) *)
Inductive addresses : bytes -> bytes -> bytes -> bytes -> Prop :=
| AD_full s a p : web_scheme s -> authority a -> prefix p -> addresses (s ++ bs "://" ++ a ++ p) s a p
| AD_short h p : host_name h -> prefix p -> addresses (h ++ p) (bs "https") h p.
(* Request paths *)
Definition uri_ok (u : bytes) : Prop := (exists t, u = 47 :: t) /\ Forall (fun c => 32 <= c /\ c <> 127) u.

(* ---- Lemmas ---- *)
Lemma name_letter c : name_char c -> letter c = true \/ (letter c = false /\ (digit c || (c =? 43) || (c =? 45) || (c =? 46)) = true).
Proof. unfold name_char, letter, digit. lia. Qed.
Lemma scheme_none : forall h acc r, Forall name_char h -> (r = [] \/ exists t, r = 47 :: t) -> getScheme acc (h ++ r) = SNone.
Proof.
  induction h as [|c h IH]; intros acc r F R.
  - destruct R as [-> | [t ->]]; reflexivity.
  - inversion F; subst. cbn [app getScheme]. destruct (name_letter c H1) as [E|[E1 E2]]; [rewrite E; now apply IH|]. rewrite E1, E2.
    destruct acc; [reflexivity|now apply IH].
Qed.
Lemma scheme_some : forall h acc r, Forall name_char h -> acc <> [] -> getScheme acc (h ++ 58 :: r) = SSome (acc ++ h) r.
Proof.
  induction h as [|c h IH]; intros acc r F N.
  - cbn. rewrite app_nil_r. destruct acc; [congruence|reflexivity].
  - inversion F; subst. cbn [app getScheme]. destruct (name_letter c H1) as [E|[E1 E2]].
    + rewrite E. rewrite IH; auto; [|destruct acc; discriminate]. now rewrite <- app_assoc.
    + rewrite E1, E2. destruct acc as [|a acc]; [congruence|]. rewrite IH; auto; [|discriminate]. now rewrite <- app_assoc.
Qed.
Lemma cut_app sep a b : ~ In sep a -> (b = [] \/ exists t, b = sep :: t) -> cut sep (a ++ b) = (a, b).
Proof.
  induction a as [|c a IH]; intros N B.
  - destruct B as [-> | [t ->]]; cbn; [reflexivity|]. now rewrite Z.eqb_refl.
  - cbn. destruct (c =? sep) eqn:E; [apply Z.eqb_eq in E; destruct N; now left|]. rewrite IH; auto. intros I; apply N; now right.
Qed.
Lemma names_not c h : Forall name_char h -> c = 58 \/ c = 47 -> ~ In c h.
Proof. intros F E I. rewrite Forall_forall in F. specialize (F _ I). unfold name_char in F. lia. Qed.
Lemma digits_not c h : Forall (fun c => 48 <= c <= 57) h -> c = 58 \/ c = 47 -> ~ In c h.
Proof. intros F E I. rewrite Forall_forall in F. specialize (F _ I). cbn in F. lia. Qed.
Lemma okHost_authority a : authority a -> okHost a = true.
Proof.
  intros A. unfold okHost. destruct A as [h [N F]|h p [N F] [M D]].
  - replace (rev h) with (rev h ++ []) by apply app_nil_r. rewrite cut_app; [reflexivity| |now left].
    rewrite <- in_rev. apply names_not; auto.
  - rewrite app_assoc, rev_app_distr, rev_app_distr. cbn [rev app]. rewrite cut_app.
    + apply forallb_forall. intros x I. rewrite <- in_rev in I. rewrite Forall_forall in D. specialize (D _ I). unfold digit. cbn in D. lia.
    + rewrite <- in_rev. apply digits_not; auto.
    + right. eauto.
Qed.
Lemma authority_chars a : authority a -> Forall (fun c => name_char c \/ c = 58) a /\ a <> [].
Proof.
  intros [h [N F]|h p [N F] [M D]].
  - split; auto. eapply Forall_impl; [|exact F]. cbn. auto.
  - split; [|destruct h; discriminate]. apply Forall_app. split; [eapply Forall_impl; [|exact F]; cbn; auto|]. constructor; [auto|].
    eapply Forall_impl; [|exact D]. cbn. unfold name_char. lia.
Qed.
Lemma authority_no_slash a : authority a -> ~ In 47 a.
Proof. intros A I. destruct (authority_chars a A) as [F _]. rewrite Forall_forall in F. specialize (F _ I). unfold name_char in F. lia. Qed.
Lemma prefix_shape p : prefix p -> (p = [] \/ exists t, p = 47 :: t) /\ Forall (fun c => path_char c \/ c = 47) p.
Proof.
  induction 1 as [|s p N F P [IH1 IH2]]; [split; [now left|constructor]|]. split; [right; now exists (s ++ p)|].
  constructor; [now right|]. apply Forall_app. split; [eapply Forall_impl; [|exact F]; cbn; auto|auto].
Qed.
(* Characters that aren't control characters *)
Definition ok_char (c : Z) : Prop := 32 <= c /\ c <> 127.
Lemma no_ctl s : Forall ok_char s -> existsb (fun c => (c <? 32) || (c =? 127)) s = false.
Proof.
  intros F. destruct (existsb _ s) eqn:E; [|reflexivity]. apply existsb_exists in E. destruct E as [c [I E]]. rewrite Forall_forall in F.
  destruct (F _ I). lia.
Qed.
Lemma ok_authority a : authority a -> Forall ok_char a.
Proof. intros A. destruct (authority_chars a A) as [F _]. eapply Forall_impl; [|exact F]. unfold name_char, ok_char. cbn. lia. Qed.
Lemma ok_names a : Forall name_char a -> Forall ok_char a.
Proof. intros F. eapply Forall_impl; [|exact F]. unfold name_char, ok_char. cbn. lia. Qed.
Lemma ok_prefix a : prefix a -> Forall ok_char a.
Proof. intros A. destruct (prefix_shape a A) as [_ F]. eapply Forall_impl; [|exact F]. unfold path_char, name_char, ok_char. cbn. lia. Qed.
Lemma ok_path : Forall ok_char Path.
Proof. unfold ok_char. repeat (constructor; [cbv; split; [discriminate|discriminate]|]). constructor. Qed.

(* An absolute URL *)
Lemma parse_full s a p : web_scheme s -> authority a -> (p = [] \/ exists t, p = 47 :: t) -> Forall ok_char p ->
  parseURL (s ++ bs "://" ++ a ++ p) = Some (Url s [] a p).
Proof.
  intros S A R K.
  assert (G : getScheme [] (s ++ bs "://" ++ a ++ p) = SSome s ([47; 47] ++ a ++ p) /\ map lower s = s /\ s <> [] /\ Forall ok_char s).
  { destruct S as [-> | ->]; repeat split; try discriminate; unfold ok_char; repeat (constructor; [cbv; split; discriminate|]); constructor. }
  destruct G as [G [L [N O]]]. unfold parseURL. rewrite no_ctl.
  2:{ apply Forall_app. split; auto. apply Forall_app. split; [unfold ok_char; repeat (constructor; [cbv; split; discriminate|]); constructor|]. apply Forall_app. split; auto. now apply ok_authority. }
  rewrite G, L. cbv zeta. cbn [app has_prefix Z.eqb Pos.eqb andb negb skipn].
  destruct s as [|s0 s']; [congruence|]. cbn [orb andb].
  rewrite cut_app by (auto using authority_no_slash). rewrite okHost_authority by auto. reflexivity.
Qed.
Lemma not_slash c t : c <> 47 -> has_prefix [47] (c :: t) = false.
Proof. intros N. change (has_prefix [47] (c :: t)) with ((47 =? c) && true). apply Z.eqb_neq in N. rewrite Z.eqb_sym, N. reflexivity. Qed.
(* A path with a name in the beginning *)
Lemma parse_short h p : host_name h -> (p = [] \/ exists t, p = 47 :: t) -> Forall ok_char p -> parseURL (h ++ p) = Some (Url [] [] [] (h ++ p)).
Proof.
  intros [N F] R K. unfold parseURL. rewrite no_ctl by (apply Forall_app; split; auto using ok_names).
  rewrite scheme_none by auto. cbv zeta.
  assert (E : has_prefix [47] (h ++ p) = false).
  { destruct h as [|c h]; [congruence|]. inversion F; subst. cbn [app]. apply not_slash. unfold name_char in H1. lia. }
  rewrite E. cbn [negb]. rewrite cut_app by (auto using names_not). cbn [fst].
  assert (H : has 58 h = false).
  { destruct (has 58 h) eqn:H; [|reflexivity]. unfold has in H. apply existsb_exists in H. destruct H as [c [I H]]. apply Z.eqb_eq in H. subst c. destruct (names_not 58 h F (or_introl eq_refl) I). }
  now rewrite H.
Qed.
(* A host and a port look like a scheme and an opaque part, or like nothing. *)
Lemma parse_port h p q : host_name h -> port_number p -> prefix q -> Forall ok_char q ->
  parseURL (h ++ [58] ++ p ++ q) = match h with c :: _ => if letter c then Some (Url (map lower h) (p ++ q) [] []) else None | [] => None end.
Proof.
  intros [N F] [M D] Q K. unfold parseURL. destruct h as [|c h]; [congruence|]. inversion F; subst.
  rewrite no_ctl.
  2:{ apply Forall_app. split; [now apply ok_names|]. constructor; [cbv; split; discriminate|]. apply Forall_app. split; auto. eapply Forall_impl; [|exact D]. unfold ok_char. cbn. lia. }
  destruct (letter c) eqn:L.
  - cbn [app getScheme]. rewrite L. cbn [app]. rewrite scheme_some by (auto; discriminate). cbn [app]. cbv zeta.
    destruct p as [|d p]; [congruence|]. inversion D; subst. cbn [app]. rewrite not_slash by lia. reflexivity.
  - assert (G : getScheme [] ((c :: h) ++ [58] ++ p ++ q) = SNone).
    { cbn [app getScheme]. rewrite L. destruct (name_letter c H1) as [X|[_ X]]; [congruence|]. now rewrite X. }
    rewrite G. cbv zeta. 
    assert (C : cut 47 ((c :: h) ++ [58] ++ p ++ q) = ((c :: h) ++ [58] ++ p, q)).
    { replace ((c :: h) ++ [58] ++ p ++ q) with (((c :: h) ++ [58] ++ p) ++ q) by (now rewrite <- !app_assoc).
      apply cut_app; [|apply prefix_shape; auto]. rewrite !in_app_iff. intros [I|[I|I]]; [exact (names_not 47 _ F (or_intror eq_refl) I)| |exact (digits_not 47 _ D (or_intror eq_refl) I)].
      cbn in I. lia. }
    rewrite C. cbn [fst]. cbn [app]. rewrite not_slash by (unfold name_char in H1; lia). cbn [negb].
    replace (has 58 (c :: h ++ 58 :: p)) with true; [reflexivity|]. symmetry. unfold has. apply existsb_exists. exists 58. split; [|reflexivity].
    right. apply in_app_iff. right. now left.
Qed.
Lemma contains_no x s : In x (bs "://") -> (forall a b, s <> a ++ bs "://" ++ b) -> contains (bs "://") s = false.
Proof.
  intros _. revert s. assert (P : forall q l, has_prefix q l = true -> exists b, l = q ++ b).
  { induction q as [|y q IH]; intros l H; [now exists l|]. destruct l as [|z l]; [discriminate|]. cbn in H. apply andb_true_iff in H. destruct H as [H1 H2].
    apply Z.eqb_eq in H1. subst. destruct (IH _ H2) as [b ->]. now exists b. }
  induction s as [|c s IH]; intros H; [reflexivity|]. cbn [contains]. destruct (has_prefix (bs "://") (c :: s)) eqn:E.
  - apply P in E. destruct E as [b E]. destruct (H [] b E).
  - cbn [orb]. apply IH. intros a b ->. apply (H (c :: a) b). reflexivity.
Qed.
Lemma contains_yes a b : contains (bs "://") (a ++ bs "://" ++ b) = true.
Proof. induction a as [|c a IH]; [reflexivity|]. cbn [app contains]. rewrite IH. apply orb_true_r. Qed.
(* Not when a colon is missing, or followed by a digit or nothing *)
Lemma short_no_scheme h p : Forall name_char h -> prefix p -> contains (bs "://") (h ++ p) = false.
Proof.
  intros F P. apply (contains_no 58); [now left|]. intros a b E.
  assert (I : In 58 (h ++ p)) by (rewrite E; apply in_app_iff; right; now left).
  apply in_app_iff in I. destruct I as [I|I]; [exact (names_not 58 h F (or_introl eq_refl) I)|].
  destruct (prefix_shape p P) as [_ G]. rewrite Forall_forall in G. specialize (G _ I). unfold path_char, name_char in G. lia.
Qed.
Lemma port_no_scheme h q p : Forall name_char h -> port_number q -> prefix p -> contains (bs "://") (h ++ [58] ++ q ++ p) = false.
Proof.
  intros F [M D] P. apply (contains_no 58); [now left|]. intros a b E.
  assert (N1 : ~ In 58 h) by (apply names_not; auto).
  assert (N2 : ~ In 58 (q ++ p)).
  { intros I. apply in_app_iff in I. destruct I as [I|I]; [exact (digits_not 58 q D (or_introl eq_refl) I)|].
    destruct (prefix_shape p P) as [_ G]. rewrite Forall_forall in G. specialize (G _ I). unfold path_char, name_char in G. lia. }
  revert a E. induction h as [|c h IH]; intros a E.
  - destruct a as [|x a]; cbn in E.
    + injection E as Et. destruct q as [|d q]; [congruence|]. cbn in Et. injection Et as -> _. inversion D; subst. lia.
    + injection E as Ex Et. apply N2. rewrite Et. apply in_app_iff. right. now left.
  - inversion F; subst. destruct a as [|x a]; cbn in E; [injection E as Ex Et; subst; apply N1; now left|injection E as Ex Et].
    apply (IH H2) with (a := a); auto. intros I. apply N1. now right.
Qed.

(* Requests go to the server that the address tells, also with a host and port without a scheme. *)
Theorem client_reaches_server : forall addr s a p uri, addresses addr s a p \/ (exists h q, addr = h ++ [58] ++ q ++ p /\ host_name h /\ port_number q /\ prefix p /\ s = bs "https" /\ a = h ++ [58] ++ q) ->
  uri_ok uri -> makeURL addr uri = Some (Url s [] a (p ++ uri)).
Proof.
  intros addr s a p uri A [[t ->] U].
  assert (R : forall p, prefix p -> p ++ 47 :: t = [] \/ exists t0, p ++ 47 :: t = 47 :: t0).
  { intros x P. right. destruct (prefix_shape x P) as [[-> | [t0 ->]] _]; eexists; reflexivity. }
  unfold makeURL. destruct A as [[s' a' p' S A P|h p' H P]|(h & q & -> & H & Q & P & -> & ->)].
  - rewrite contains_yes, <- !app_assoc. apply parse_full; auto. apply Forall_app. split; [now apply ok_prefix|exact U].
  - rewrite short_no_scheme by (auto; apply H). replace (bs "https://") with (bs "https" ++ bs "://") by reflexivity. rewrite <- !app_assoc.
    apply parse_full; auto; [right; reflexivity|now constructor|]. apply Forall_app. split; [now apply ok_prefix|exact U].
  - rewrite port_no_scheme by (auto; apply H). replace (bs "https://") with (bs "https" ++ bs "://") by reflexivity.
    replace (((bs "https" ++ bs "://") ++ h ++ [58] ++ q ++ p) ++ 47 :: t) with (bs "https" ++ bs "://" ++ (h ++ [58] ++ q) ++ p ++ 47 :: t) by (now rewrite <- !app_assoc).
    apply parse_full; auto; [right; reflexivity|now constructor|]. apply Forall_app. split; [now apply ok_prefix|exact U].
Qed.
Print Assumptions client_reaches_server.

(* ---- Audience ---- *)
Definition audience (addr : bytes) : option bytes := option_map urlString (audienceURL addr).
Lemma string_full s a p : web_scheme s -> a <> [] -> (exists t, p = 47 :: t) -> urlString (Url s [] a p) = s ++ bs "://" ++ a ++ p.
Proof.
  intros S N [t ->]. unfold urlString. cbn [scheme opaque host path nonempty has_prefix Z.eqb Pos.eqb andb negb].
  destruct a as [|x a]; [congruence|]. cbn [nonempty]. destruct S as [-> | ->]; reflexivity.
Qed.
Theorem client_audience : forall addr s a p, addresses addr s a p -> audience addr = Some (server_identity s a p).
Proof.
  intros addr s a p A. unfold audience, audienceURL, server_identity. destruct A as [s a p S A P|h p H P].
  - destruct (prefix_shape p P) as [R _]. rewrite parse_full by (auto using ok_prefix). cbn [scheme opaque host path option_map].
    assert (E : match s with [] => bs "https" | _ :: _ => s end = s) by (destruct S as [-> | ->]; reflexivity). rewrite E. f_equal.
    rewrite string_full; [reflexivity|auto|apply authority_chars; auto|]. destruct R as [-> | [t ->]]; eexists; reflexivity.
  - destruct (prefix_shape p P) as [R _]. rewrite parse_short by (auto using ok_prefix). cbn [scheme opaque host path option_map]. f_equal.
    unfold urlString. cbn [scheme opaque host path]. destruct H as [N F]. destruct h as [|c h]; [congruence|].
    cbn [app nonempty bs orb andb negb]. rewrite andb_false_r. cbn [app]. rewrite <- app_assoc. reflexivity.
Qed.
Print Assumptions client_audience.
(* With a host and a port but no scheme, or with a slash at the end, the audience is something else, or the client gives up. *)
Theorem client_audience_refuted :
  (forall h q p s, host_name h -> port_number q -> prefix p -> web_scheme s -> audience (h ++ [58] ++ q ++ p) <> Some (server_identity s (h ++ [58] ++ q) p)) /\
  (forall h q p, host_name h -> port_number q -> prefix p -> (exists c t, h = c :: t /\ (48 <= c <= 57)) -> audience (h ++ [58] ++ q ++ p) = None) /\
  (forall s a p s', web_scheme s -> authority a -> prefix p -> audience (s ++ bs "://" ++ a ++ p ++ [47]) = Some (server_identity s a (p ++ [47])) /\
     (web_scheme s' -> server_identity s a (p ++ [47]) <> server_identity s' a p)).
Proof.
  split; [|split].
  - intros h q p s H Q P S. unfold audience, audienceURL. rewrite (parse_port h q p) by (auto using ok_prefix). destruct h as [|c h]; [discriminate|].
    destruct (letter c); [|discriminate]. cbn [option_map]. intros E. injection E as E. apply (f_equal (@length Z)) in E.
    unfold urlString, server_identity in E. cbn [scheme opaque host path map nonempty] in E.
    destruct Q as [M D]. destruct q as [|d q]; [congruence|]. cbn [app] in E. rewrite !app_length in E. cbn [length] in E. rewrite !app_length in E. rewrite map_length in E.
    cbn [length] in E. rewrite !app_length in E. cbn [length] in E. destruct S as [-> | ->]; cbn in E; rewrite ?app_length in E; cbn [length] in E; rewrite ?app_length in E; cbn [length] in E; lia.
  - intros h q p H Q P (c & t & -> & D). unfold audience, audienceURL. rewrite (parse_port (c :: t) q p) by (auto using ok_prefix).
    replace (letter c) with false by (unfold letter; lia). reflexivity.
  - intros s a p s' S A P. split.
    + destruct (prefix_shape p P) as [R _]. unfold audience, audienceURL, server_identity.
      rewrite parse_full; auto.
      * cbn [scheme opaque host path option_map]. assert (E : match s with [] => bs "https" | _ :: _ => s end = s) by (destruct S as [-> | ->]; reflexivity). rewrite E. f_equal.
        rewrite string_full; [now rewrite <- !app_assoc|auto|apply authority_chars; auto|]. destruct R as [-> | [t ->]]; eexists; reflexivity.
      * right. destruct R as [-> | [t ->]]; eexists; reflexivity.
      * apply Forall_app. split; [now apply ok_prefix|]. repeat constructor; cbv; discriminate.
    + intros S' E. unfold server_identity in E. destruct S as [-> | ->], S' as [-> | ->]; try (vm_compute in E; discriminate E);
        apply (f_equal (@length Z)) in E; rewrite !app_length in E; cbn [length] in E; lia.
Qed.
Print Assumptions client_audience_refuted.

(* ---- Tokens ---- *)
Lemma Join_join ws : Join ws = join ws.
Proof.
  destruct ws as [|w t]; [reflexivity|]. revert w. induction t as [|x t IH]; intros w; [cbn; apply app_nil_r|].
  change (Join (w :: x :: t)) with (w ++ 32 :: Join (x :: t)). rewrite IH. reflexivity.
Qed.
Lemma insert_perm x l : Permutation (ins x l) (x :: l).
Proof.
  induction l as [|y l IH]; [reflexivity|]. cbn [ins]. destruct (lex x y); [reflexivity|].
  rewrite IH. apply perm_swap.
Qed.
Lemma sort_perm l : Permutation (sort l) l.
Proof. induction l as [|x l IH]; [reflexivity|]. cbn [sort fold_right]. fold (sort l). rewrite insert_perm. now constructor. Qed.
(* The number of spaces tells the number of words. *)
Definition spaces (s : bytes) : nat := count_occ Z.eq_dec s 32.
Lemma spaces_app a b : spaces (a ++ b) = (spaces a + spaces b)%nat.
Proof. apply count_occ_app. Qed.
Lemma spaces_join ws : Forall (fun w => ~ In 32 w) ws -> ws <> [] -> spaces (join ws) = (length ws - 1)%nat.
Proof.
  induction ws as [|w [|x t] IH]; intros F N; [congruence| |].
  - inversion F; subst. cbn [join length Nat.sub]. now apply count_occ_not_In.
  - inversion F; subst. assert (E : join (w :: x :: t) = w ++ [32] ++ join (x :: t)) by reflexivity. rewrite E, !spaces_app, IH by (auto; discriminate).
    assert (W : spaces w = 0%nat) by (now apply count_occ_not_In). rewrite W. change (spaces [32]) with 1%nat. cbn [length]. lia.
Qed.

(* JSON coding works for the values at hand. *)
Definition coding (e : env) (mh : header -> bytes) (mc : claims -> bytes) (h : header) (c : claims) : Prop :=
  is_bytes (mh h) /\ mh h <> [] /\ parse_header e (mh h) = Some h /\ is_bytes (mc c) /\ parse_claims e (mc c) = Some c.
(* A made token that is accepted has good claims. *)
Lemma made_claims e t1 t2 sign h js c v i sc mh require db : claims_int64 e -> clock t1 -> (forall m, is_bytes (sign m)) ->
  is_bytes (mh h) -> mh h <> [] -> is_bytes js -> parse_claims e js = Some c ->
  v = AuthorizationBearerEd25519 sign (MustEncode mh h) js ->
  fst (parseAuthorizationHeader e t1 t2 [v] require db) = Accept i sc ->
  (t1 <= Exp c <= t1 + 900 \/ (local e = true /\ Exp c = 0)) /\ (Aud c = [] \/ In (identity e) (Aud c)) /\
  Scope c = join sc /\ (1 <= length sc <= 10)%nat /\ Forall (fun w => ~ In 32 w) sc.
Proof.
  intros HC HT HS HM HN HJ PC -> H. apply auth_exact in H; auto. destruct H as (v & Ev & PV). injection Ev as <-.
  set (signed := b64encode (mh h) ++ [46] ++ b64encode js).
  assert (EQ : AuthorizationBearerEd25519 sign (MustEncode mh h) js =
    bs "Bearer " ++ b64encode (mh h) ++ [46] ++ b64encode js ++ [46] ++ b64encode (sign signed)).
  { unfold AuthorizationBearerEd25519, MustEncode, unsignedBearer.
    replace (bs "Bearer " ++ b64encode (mh h) ++ [46] ++ b64encode js ++ [46]) with (bs "Bearer " ++ signed ++ [46]) by (unfold signed; rewrite <- !app_assoc; reflexivity).
    replace (skipn 7 (bs "Bearer " ++ signed ++ [46])) with (signed ++ [46]) by reflexivity.
    replace (length (bs "Bearer " ++ signed ++ [46%Z]) - 1 - 7)%nat with (length signed) by (rewrite !app_length; cbn; lia).
    rewrite firstn_app_exact. unfold signed. rewrite <- !app_assoc. reflexivity. }
  rewrite EQ in PV. destruct PV as (h' & p' & sg' & bh & bp & sig & hd & c' & B & N1 & N2 & H1 & H2 & H3 & _ & PC' & VE & VA & _ & S1 & S2 & S3).
  pose proof (bearer_made (mh h) js (sign signed) HM HN HJ (or_intror (HS signed))) as B'.
  apply bearer_spec in B, B'. rewrite B' in B. injection B as B.
  destruct (dot_split_unique (b64encode (mh h)) (b64encode js) (b64encode (sign signed)) h' p' sg') as (E1 & E2 & E3); auto using b64_no.
  subst p'. apply component_spec in H2. pose proof (holds_encode js HJ) as H2'. apply component_spec in H2'. rewrite H2' in H2. injection H2 as <-.
  rewrite PC in PC'. injection PC' as <-. auto.
Qed.

(* A request with the client's key is authorized as the key's principal with the scopes that the user asked for, if the address tells the server's
   identity and the client's clock is at most a minute behind and fourteen minutes ahead. *)
Theorem client_authorized : forall e t1 t2 require db pub sign mh mc loopback addr s a p scopes now,
  claims_int64 e -> clock t1 -> is_bytes pub -> length pub = 32%nat -> (forall m, is_bytes (sign m) /\ verify e pub m (sign m) = true) ->
  (forall c, clientClaims addr scopes now = Some c -> coding e mh mc (TokenHeaderEdDSA (PublicKeyEd25519 pub)) c) ->
  addresses addr s a p -> identity e = server_identity s a p ->
  t1 - 60 <= now <= t1 + 840 -> (length scopes <= 10)%nat -> Forall (fun w => ~ In 32 w) scopes ->
  exists v sc, makeAuthorization mh mc loopback (Key pub sign) addr scopes now = Some v /\
    fst (parseAuthorizationHeader e t1 t2 (headerValues v) require db) = Accept (ID pub (bs "ed25519:" ++ b64encode pub)) sc /\
    (if scopes then sc = [[]] else Permutation sc scopes).
Proof.
  intros e t1 t2 require db pub sign mh mc loopback addr s a p scopes now HC HT HP HL HS CO A EI TN L F.
  pose proof (client_audience addr s a p A) as AU. unfold audience in AU.
  unfold makeAuthorization. unfold clientClaims in *. destruct (audienceURL addr) as [u|]; [|discriminate]. injection AU as AU.
  set (c := Claims (now + 60) [urlString u] [] (Join (sort scopes))) in *. destruct (CO c eq_refl) as (M1 & M2 & M3 & M4 & M5).
  set (sc := match scopes with [] => [[]] | _ => sort scopes end).
  eexists. exists sc. split; [reflexivity|]. split; [|unfold sc; destruct scopes; [reflexivity|apply sort_perm]].
  assert (V : exists x, AuthorizationBearerEd25519 sign (MustEncode mh (TokenHeaderEdDSA (PublicKeyEd25519 pub))) (mc c) = 66 :: x) by (eexists; reflexivity).
  destruct V as [x V]. unfold headerValues. rewrite V. rewrite <- V.
  assert (SP : Permutation sc (match scopes with [] => [[]] | _ => scopes end)) by (unfold sc; destruct scopes; [reflexivity|apply sort_perm]).
  apply (auth_made_ed25519 e t1 t2 require db pub sign mh (mc c) c sc); auto.
  - cbn. lia.
  - right. cbn. left. congruence.
  - cbn. rewrite Join_join. unfold sc. destruct scopes; reflexivity.
  - pose proof (Permutation_length SP) as PL. unfold bytes in *. rewrite PL. destruct scopes; cbn [List.length] in *; lia.
  - rewrite SP. destruct scopes; [constructor; [intros []|constructor]|exact F].
Qed.
Print Assumptions client_authorized.
(* Otherwise it isn't authorized at all: clocks which differ more, another audience, or more than ten scopes. *)
Theorem client_unauthorized : forall e t1 t2 require db pub sign mh mc loopback addr scopes now v,
  claims_int64 e -> clock t1 -> (forall m, is_bytes (sign m)) -> 0 <= now ->
  (forall c, clientClaims addr scopes now = Some c -> coding e mh mc (TokenHeaderEdDSA (PublicKeyEd25519 pub)) c) ->
  makeAuthorization mh mc loopback (Key pub sign) addr scopes now = Some v ->
  now < t1 - 60 \/ t1 + 840 < now \/ audience addr <> Some (identity e) \/ ((length scopes > 10)%nat /\ Forall (fun w => ~ In 32 w) scopes) ->
  forall i sc, fst (parseAuthorizationHeader e t1 t2 (headerValues v) require db) <> Accept i sc.
Proof.
  intros e t1 t2 require db pub sign mh mc loopback addr scopes now v HC HT HS HN CO MA BAD i sc H.
  unfold makeAuthorization, clientClaims, audience in *. destruct (audienceURL addr) as [u|]; [|discriminate].
  set (c := Claims (now + 60) [urlString u] [] (Join (sort scopes))) in *. destruct (CO c eq_refl) as (M1 & M2 & M3 & M4 & M5).
  injection MA as MA. assert (V : exists x, AuthorizationBearerEd25519 sign (MustEncode mh (TokenHeaderEdDSA (PublicKeyEd25519 pub))) (mc c) = 66 :: x) by (eexists; reflexivity).
  destruct V as [x V]. rewrite MA in V. assert (HV : headerValues v = [v]) by (rewrite V; reflexivity). rewrite HV in H.
  destruct (made_claims e t1 t2 sign (TokenHeaderEdDSA (PublicKeyEd25519 pub)) (mc c) c v i sc mh require db) as (VE & VA & S1 & S2 & S3); auto.
  cbn in VE, VA, S1. destruct BAD as [B|[B|[B|[B1 B2]]]].
  - lia.
  - lia.
  - destruct VA as [VA|[VA|[]]]; [discriminate|]. apply B. cbn. congruence.
  - rewrite Join_join in S1. apply (f_equal spaces) in S1. pose proof (sort_perm scopes) as SP.
    rewrite !spaces_join in S1; auto.
    + pose proof (Permutation_length SP) as PL. unfold bytes in *. lia.
    + destruct sc; [cbn in S2; lia|discriminate].
    + now rewrite SP.
    + intros E. rewrite E in SP. apply Permutation_length in SP. cbn in SP. lia.
Qed.
Print Assumptions client_unauthorized.
(* So a host and port without a scheme can't be used with a key, although the requests reach the server. *)
Theorem client_authorized_refuted : forall e t1 t2 require db pub sign mh mc loopback h q p s scopes now v,
  claims_int64 e -> clock t1 -> (forall m, is_bytes (sign m)) -> 0 <= now -> host_name h -> port_number q -> prefix p -> web_scheme s ->
  identity e = server_identity s (h ++ [58] ++ q) p ->
  (forall c, clientClaims (h ++ [58] ++ q ++ p) scopes now = Some c -> coding e mh mc (TokenHeaderEdDSA (PublicKeyEd25519 pub)) c) ->
  makeAuthorization mh mc loopback (Key pub sign) (h ++ [58] ++ q ++ p) scopes now = Some v ->
  (forall uri, uri_ok uri -> makeURL (h ++ [58] ++ q ++ p) uri = Some (Url (bs "https") [] (h ++ [58] ++ q) (p ++ uri))) /\
  forall i sc, fst (parseAuthorizationHeader e t1 t2 (headerValues v) require db) <> Accept i sc.
Proof.
  intros e t1 t2 require db pub sign mh mc loopback h q p s scopes now v HC HT HS HN H Q P S EI CO MA. split.
  - intros uri U. apply (client_reaches_server (h ++ [58] ++ q ++ p) (bs "https") (h ++ [58] ++ q) p uri); [|exact U]. right. exists h, q. auto 10.
  - eapply client_unauthorized; eauto. right. right. left. rewrite EI. apply client_audience_refuted; auto.
Qed.
Print Assumptions client_authorized_refuted.
(* With an empty identity file, a token is only sent to loopback addresses without encryption; it is accepted as the local principal. *)
Theorem client_local : forall mh mc loopback addr scopes now v, makeAuthorization mh mc loopback EmptyFile addr scopes now = Some v ->
  exists u, audienceURL addr = Some u /\ scheme u = bs "http" /\ loopback (fst (cut 58 (host u))) = true.
Proof.
  intros mh mc loopback addr scopes now v H. unfold makeAuthorization in H. destruct (audienceURL addr) as [u|]; [|discriminate].
  destruct (clientClaims addr scopes now); [|discriminate]. exists u. split; [reflexivity|].
  destruct (beq (scheme u) (bs "http")) eqn:E; [|discriminate]. apply beq_spec in E. split; [exact E|]. cbn [negb] in H. destruct (loopback _); [reflexivity|discriminate].
Qed.
Theorem client_local_authorized : forall e t1 t2 require db mh mc loopback addr a p scopes now,
  claims_int64 e -> clock t1 -> local e = true ->
  (forall c, clientClaims addr scopes now = Some c -> coding e mh mc (Header (bs "none") None) c) ->
  addresses addr (bs "http") a p -> identity e = server_identity (bs "http") a p ->
  loopback (fst (cut 58 a)) = true ->
  t1 - 60 <= now <= t1 + 840 -> (length scopes <= 10)%nat -> Forall (fun w => ~ In 32 w) scopes ->
  exists v sc, makeAuthorization mh mc loopback EmptyFile addr scopes now = Some v /\
    fst (parseAuthorizationHeader e t1 t2 (headerValues v) require db) = Accept LocalID sc /\ (if scopes then sc = [[]] else Permutation sc scopes).
Proof.
  intros e t1 t2 require db mh mc loopback addr a p scopes now HC HT HL CO A EI LB TN L F.
  pose proof (client_audience addr (bs "http") a p A) as AU. unfold audience in AU.
  assert (AX : exists q, audienceURL addr = Some (Url (bs "http") [] a q)).
  { inversion A; subst.
    unfold audienceURL. destruct (prefix_shape p H1) as [R _]. rewrite (parse_full (bs "http") a p) by (auto using ok_prefix). cbn. eauto. }
  destruct AX as [q AX]. unfold makeAuthorization. unfold clientClaims in *. rewrite AX in *. apply (f_equal (fun o => match o with Some x => x | None => [] end)) in AU. cbv beta iota delta [option_map] in AU. cbn [scheme host]. rewrite beq_refl, LB. cbn [negb].
  set (c := Claims (now + 60) [urlString (Url (bs "http") [] a q)] [] (Join (sort scopes))) in *. destruct (CO c eq_refl) as (M1 & M2 & M3 & M4 & M5).
  set (sc := match scopes with [] => [[]] | _ => sort scopes end).
  eexists. exists sc. split; [reflexivity|]. split; [|unfold sc; destruct scopes; [reflexivity|apply sort_perm]].
  assert (V : exists x, AuthorizationBearerLocal mh (mc c) = 66 :: x) by (eexists; reflexivity).
  destruct V as [x V]. unfold headerValues. rewrite V. rewrite <- V.
  assert (SP : Permutation sc (match scopes with [] => [[]] | _ => scopes end)) by (unfold sc; destruct scopes; [reflexivity|apply sort_perm]).
  apply (auth_made_local e t1 t2 require db mh (mc c) c sc); auto.
  - left. cbn. lia.
  - right. left. rewrite EI. exact AU.
  - cbn. rewrite Join_join. unfold sc. destruct scopes; reflexivity.
  - pose proof (Permutation_length SP) as PL. unfold bytes in *. rewrite PL. destruct scopes; cbn [List.length] in *; lia.
  - rewrite SP. destruct scopes; [constructor; [intros []|constructor]|exact F].
Qed.
Print Assumptions client_local.
Print Assumptions client_local_authorized.

(* Non-vacuity: addresses of each form, what becomes of them, and a request's way through. *)
Example ex_addresses : addresses (bs "https://example.net/x") (bs "https") (bs "example.net") (bs "/x") /\ addresses (bs "example.net") (bs "https") (bs "example.net") [] /\
  addresses (bs "http://localhost:8080") (bs "http") (bs "localhost:8080") [].
Proof.
  assert (N : forall s, forallb (fun c => letter c || digit c || (c =? 45) || (c =? 46)) s = true -> Forall name_char s).
  { intros s H. apply Forall_forall. intros c I. rewrite forallb_forall in H. specialize (H _ I). unfold letter, digit in H. unfold name_char. lia. }
  split; [|split].
  - apply (AD_full (bs "https") (bs "example.net") (bs "/x")); [now right|constructor; split; [discriminate|now apply N]|].
    apply (P_seg (bs "x") []); [discriminate| |constructor]. constructor; [left; left; cbv; split; discriminate|constructor].
  - apply (AD_short (bs "example.net") []); [split; [discriminate|now apply N]|constructor].
  - apply (AD_full (bs "http") (bs "localhost:8080") []); [now left| |constructor].
    apply (A_port (bs "localhost") (bs "8080")); [split; [discriminate|now apply N]|]. split; [discriminate|]. repeat (constructor; [cbv; split; discriminate|]). constructor.
Qed.
Example ex_audiences : map audience [bs "https://example.net/x"; bs "example.net"; bs "http://localhost:8080"; bs "example.net:8080"; bs "127.0.0.1:80"; bs "https://example.net/"] =
  [Some (bs "https://example.net/x/gate-0/"); Some (bs "https://example.net/gate-0/"); Some (bs "http://localhost:8080/gate-0/"); Some (bs "example.net:8080"); None;
   Some (bs "https://example.net//gate-0/")].
Proof. vm_compute. reflexivity. Qed.
Definition ex_claims (now : Z) : claims := Claims (now + 60) [bs "https://h/gate-0/"] [] (bs "a b").
Definition ex_env : env := {| parse_header := parse_header (demo_env false false); parse_claims := fun b => match b with [x] => if (0 <=? x) && (x <? 256) then Some (ex_claims x) else None | _ => None end;
  verify := verify (demo_env false false); identity := bs "https://h/gate-0/"; local := false; nonces := false |}.
Example ex_authorized : exists v, makeAuthorization demo_marshal (fun c => [Exp c - 60]) (fun _ => false) (Key demo_key demo_sign) (bs "h") [bs "b"; bs "a"] 100 = Some v /\
  coding ex_env demo_marshal (fun c => [Exp c - 60]) (TokenHeaderEdDSA (PublicKeyEd25519 demo_key)) (ex_claims 100) /\ clientClaims (bs "h") [bs "b"; bs "a"] 100 = Some (ex_claims 100) /\
  fst (parseAuthorizationHeader ex_env 110 110 (headerValues v) true []) = Accept (ID demo_key (bs "ed25519:" ++ b64encode demo_key)) [bs "a"; bs "b"] /\
  fst (parseAuthorizationHeader ex_env 161 161 (headerValues v) true []) = Refuse.
Proof.
  eexists. split; [reflexivity|]. split.
  - unfold coding. repeat split; try discriminate; try (vm_compute; reflexivity); vm_compute; repeat (constructor; [split; [discriminate|reflexivity]|]); constructor.
  - repeat split; vm_compute; reflexivity.
Qed.
