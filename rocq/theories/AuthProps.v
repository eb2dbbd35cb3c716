(* AuthProps.v: the theorems about bearer token authentication (C37). *)
From Verif Require Import Auth AuthSpec AuthProofs.
From Coq Require Import String Ascii.
Local Notation length := List.length.

(* A small environment for the examples: header bytes 1 and then a key text, or 2 for none, or 3
   for EdDSA without a key; claims bytes: expiration, and then a nonce; a signature is good if it
   is the key followed by the length of the message. *)
Definition demo_env (loc nn : bool) : env := {|
  parse_header := fun b => match b with
    | 1 :: x => Some (Header (bs "EdDSA") (Some (JWK (bs "OKP") (bs "Ed25519") x)))
    | [2] => Some (Header (bs "none") None) | [3] => Some (Header (bs "EdDSA") None) | _ => None end;
  parse_claims := fun b => match b with x :: n => if x <? 256 then if 0 <=? x then Some (Claims x [] n (bs "a b")) else None else None | [] => None end;
  verify := fun k m s => beq s (k ++ [len m mod 256]);
  identity := bs "https://here/"; local := loc; nonces := nn |}.
Definition demo_marshal (h : header) : bytes := match Jwk h with Some k => 1 :: X k | None => if beq (Alg h) (bs "none") then [2] else [3] end.
Definition demo_key : bytes := repeat 7 32.
Definition demo_sign (m : bytes) : bytes := demo_key ++ [len m mod 256].
Definition demo_token (c : bytes) : bytes :=
  AuthorizationBearerEd25519 demo_sign (MustEncode demo_marshal (TokenHeaderEdDSA (PublicKeyEd25519 demo_key))) c.
Lemma demo_int64 : forall l n, claims_int64 (demo_env l n).
Proof.
  intros l n b c H. cbn in H. destruct b as [|x b]; [discriminate|]. destruct (x <? 256) eqn:E1; [|discriminate]. destruct (0 <=? x) eqn:E2; [|discriminate].
  injection H as <-. cbn [Exp]. lia.
Qed.

(* C37: a request is given to a principal, with a scope, exactly when it has a single
   Authorization header which proves the principal. *)
Theorem auth_exact : forall e t1 t2 values require db i scope, claims_int64 e -> clock t1 ->
  (fst (parseAuthorizationHeader e t1 t2 values require db) = Accept i scope <->
   exists v, values = [v] /\ proves e t1 t2 db v i scope).
Proof.
  intros e t1 t2 values require db i scope HC HT. unfold parseAuthorizationHeader.
  destruct values as [|v [|w ws]].
  - split; [destruct require; discriminate|]. intros (v & H & _). discriminate.
  - split.
    + intros H. exists v. split; auto. apply auth_value; auto.
    + intros (v' & E & H). assert (v' = v) by congruence. subst. apply auth_value; auto.
  - split; [discriminate|]. intros (v' & H & _). discriminate.
Qed.
Print Assumptions auth_exact.

(* Without local mode, every accepted request has a signature, by the key which the principal is
   named after, of the very header and payload text that was sent. *)
Theorem auth_signed : forall e t1 t2 values require db i scope, claims_int64 e -> clock t1 -> local e = false ->
  fst (parseAuthorizationHeader e t1 t2 values require db) = Accept i scope ->
  exists v h p sg sig, values = [v] /\ bearer v (h ++ [46] ++ p ++ [46] ++ sg) /\ holds sg sig /\
    verify e (key i) (h ++ [46] ++ p) sig = true /\ length (key i) = 32%nat /\
    exists x, str i = bs "ed25519:" ++ x /\ base64url x (key i).
Proof.
  intros e t1 t2 values require db i scope HC HT HL H. apply auth_exact in H; auto.
  destruct H as (v & Ev & h & p & sg & bh & bp & sig & hd & c & B & _ & _ & _ & _ & HS & _ & _ & _ & _ & [(_ & (k & _ & _ & _ & _ & K1 & K2 & K3) & V & _)|(_ & E & _)] & _); [|congruence].
  exists v, h, p, sg, sig. repeat (split; [assumption|]). eauto.
Qed.
Print Assumptions auth_signed.

(* A request without the header is never given to a principal: it is refused if authorization
   is required; more than one header is refused. *)
Theorem auth_absent : forall e t1 t2 values require db, length values <> 1%nat ->
  parseAuthorizationHeader e t1 t2 values require db = (if negb require && Nat.eqb (length values) 0 then Anonymous else Refuse, db).
Proof.
  intros e t1 t2 values require db H. destruct values as [|v [|w ws]]; cbn [length Nat.eqb].
  - cbn. destruct require; reflexivity.
  - contradiction H. reflexivity.
  - rewrite andb_false_r. reflexivity.
Qed.
Print Assumptions auth_absent.

(* Tokens made with the client library are accepted as the key's principal, if the claims are
   good and the JSON and signature functions are each other's inverses. *)
Theorem auth_made_ed25519 : forall e t1 t2 require db pub sign marshal js c scope,
  claims_int64 e -> clock t1 ->
  is_bytes pub -> length pub = 32%nat ->
  let h := TokenHeaderEdDSA (PublicKeyEd25519 pub) in
  is_bytes (marshal h) -> marshal h <> [] -> parse_header e (marshal h) = Some h ->
  is_bytes js -> parse_claims e js = Some c ->
  (forall m, is_bytes (sign m) /\ verify e pub m (sign m) = true) ->
  t1 <= Exp c <= t1 + 900 -> (Aud c = [] \/ In (identity e) (Aud c)) ->
  (Nonce c = [] \/ (nonces e = true /\ fresh db t2 pub (Nonce c))) ->
  Scope c = join scope -> (1 <= length scope <= 10)%nat -> Forall (fun w => ~ In 32 w) scope ->
  fst (parseAuthorizationHeader e t1 t2 [AuthorizationBearerEd25519 sign (MustEncode marshal h) js] require db)
    = Accept (ID pub (bs "ed25519:" ++ b64encode pub)) scope.
Proof.
  intros e t1 t2 require db pub sign marshal js c scope HC HT HP HPL h HM HMN PH HJ PC HS HE HA HN S1 S2 S3.
  apply auth_exact; auto. eexists. split; [reflexivity|].
  set (signed := b64encode (marshal h) ++ [46] ++ b64encode js).
  assert (EQ : AuthorizationBearerEd25519 sign (MustEncode marshal h) js =
    bs "Bearer " ++ b64encode (marshal h) ++ [46] ++ b64encode js ++ [46] ++ b64encode (sign signed)).
  { unfold AuthorizationBearerEd25519, MustEncode, unsignedBearer.
    replace (bs "Bearer " ++ b64encode (marshal h) ++ [46] ++ b64encode js ++ [46]) with (bs "Bearer " ++ signed ++ [46]) by (unfold signed; rewrite <- !app_assoc; reflexivity).
    replace (skipn 7 (bs "Bearer " ++ signed ++ [46])) with (signed ++ [46]) by reflexivity.
    replace (length (bs "Bearer " ++ signed ++ [46%Z]) - 1 - 7)%nat with (length signed) by (rewrite !app_length; cbn; lia).
    rewrite firstn_app_exact. unfold signed. rewrite <- !app_assoc. reflexivity. }
  rewrite EQ. destruct (HS signed) as [HS1 HS2].
  exists (b64encode (marshal h)), (b64encode js), (b64encode (sign signed)), (marshal h), js, (sign signed), h, c.
  split; [apply bearer_made; auto|]. split; [apply b64_no; auto|]. split; [apply b64_no; auto|].
  split; [apply holds_encode; auto|]. split; [apply holds_encode; auto|]. split; [apply holds_encode; auto|].
  split; [assumption|]. split; [assumption|]. split; [left; assumption|]. split; [assumption|]. split; [|auto].
  left. split; [reflexivity|]. split; [|split; [exact HS2|exact HN]].
  exists (PublicKeyEd25519 pub). cbn [key str PublicKeyEd25519 Kty Crv X]. pose proof (encode_len pub HP). 
  repeat (split; [reflexivity|]). split; [lia|]. split; [apply quanta_spec, encode_quanta; auto|]. auto.
Qed.
Print Assumptions auth_made_ed25519.

(* Likewise the tokens for local mode. *)
Theorem auth_made_local : forall e t1 t2 require db marshal js c scope,
  claims_int64 e -> clock t1 -> local e = true ->
  let h := Header (bs "none") None in
  is_bytes (marshal h) -> marshal h <> [] -> parse_header e (marshal h) = Some h ->
  is_bytes js -> parse_claims e js = Some c ->
  (t1 <= Exp c <= t1 + 900 \/ Exp c = 0) -> (Aud c = [] \/ In (identity e) (Aud c)) -> Nonce c = [] ->
  Scope c = join scope -> (1 <= length scope <= 10)%nat -> Forall (fun w => ~ In 32 w) scope ->
  fst (parseAuthorizationHeader e t1 t2 [AuthorizationBearerLocal marshal js] require db) = Accept LocalID scope.
Proof.
  intros e t1 t2 require db marshal js c scope HC HT HL h HM HMN PH HJ PC HE HA HN S1 S2 S3.
  apply auth_exact; auto. eexists. split; [reflexivity|]. unfold AuthorizationBearerLocal, MustEncode, unsignedBearer.
  exists (b64encode (marshal h)), (b64encode js), [], (marshal h), js, [], h, c.
  split.
  { pose proof (bearer_made (marshal h) js [] HM HMN HJ (or_introl eq_refl)) as B. cbn [b64encode] in B. rewrite app_nil_r in B. rewrite app_nil_r. exact B. }
  split; [apply b64_no; auto|]. split; [apply b64_no; auto|].
  split; [apply holds_encode; auto|]. split; [apply holds_encode; auto|]. split; [apply (holds_encode []); constructor|].
  split; [assumption|]. split; [assumption|]. split; [tauto|]. split; [assumption|]. split; [|auto]. right. auto.
Qed.
Print Assumptions auth_made_local.

(* The hypotheses are met: tokens of both kinds, and requests which lack something. *)
Example auth_examples :
  fst (parseAuthorizationHeader (demo_env false true) 100 100 [demo_token [150; 9]] true []) =
    Accept (ID demo_key (bs "ed25519:" ++ b64encode demo_key)) [bs "a"; bs "b"] /\
  fst (parseAuthorizationHeader (demo_env false false) 100 100 [demo_token [150]] true []) =
    Accept (ID demo_key (bs "ed25519:" ++ b64encode demo_key)) [bs "a"; bs "b"] /\
  fst (parseAuthorizationHeader (demo_env false false) 151 151 [demo_token [150]] true []) = Refuse /\
  fst (parseAuthorizationHeader (demo_env false false) 100 100 [demo_token [150; 9]] true []) = Refuse /\
  fst (parseAuthorizationHeader (demo_env true false) 100 100 [AuthorizationBearerLocal demo_marshal [0]] true []) = Accept LocalID [bs "a"; bs "b"] /\
  fst (parseAuthorizationHeader (demo_env false false) 100 100 [AuthorizationBearerLocal demo_marshal [0]] true []) = Refuse.
Proof. repeat split; vm_compute; reflexivity. Qed.
Example auth_made_case : is_bytes demo_key /\ (forall m, is_bytes (demo_sign m) /\ verify (demo_env false true) demo_key m (demo_sign m) = true) /\
  parse_header (demo_env false true) (demo_marshal (TokenHeaderEdDSA (PublicKeyEd25519 demo_key))) = Some (TokenHeaderEdDSA (PublicKeyEd25519 demo_key)) /\
  bs "a b" = join [bs "a"; bs "b"].
Proof.
  split; [vm_compute; repeat (constructor; [split; [discriminate|reflexivity]|]); constructor|]. split.
  - intros m. split; [|cbn [verify demo_env]; apply beq_refl]. unfold demo_sign. apply Forall_app. split; [vm_compute; repeat (constructor; [split; [discriminate|reflexivity]|]); constructor|].
    constructor; [|constructor]. unfold is_byte. pose proof (Z.mod_pos_bound (len m) 256 ltac:(lia)). lia.
  - split; vm_compute; reflexivity.
Qed.

(* Nonces: over any history of requests sharing the table, two accepted requests whose tokens
   name the same key and have the same nonce are at least so far apart that the first token
   had expired when the second one's nonce was checked. *)
Theorem auth_nonce_reuse : forall e rs db i j ri rj vi vj pi pj si sj ii ij ci cj,
  claims_int64 e -> Forall (fun r => clock (t_exp r)) rs ->
  (forall m m' r r', (m <= m')%nat -> nth_error rs m = Some r -> nth_error rs m' = Some r' -> t_nonce r <= t_nonce r') ->
  (i < j)%nat -> nth_error rs i = Some ri -> nth_error rs j = Some rj ->
  values ri = [vi] -> values rj = [vj] -> carries e vi ii ci -> carries e vj ij cj ->
  key ii = key ij -> Nonce ci = Nonce cj -> Nonce ci <> [] ->
  nth_error (serve e db rs) i = Some (Accept pi si) -> nth_error (serve e db rs) j = Some (Accept pj sj) ->
  Exp ci < t_nonce rj.
Proof. intros. eapply serve_twice; eauto. Qed.
Print Assumptions auth_nonce_reuse.

(* So a token with a nonce is accepted once, as long as a request's two looks at the clock fall
   in the same second (and the mode is not local). *)
Theorem auth_nonce_once_partial : forall e rs db i j ri rj v pi pj si sj ii c,
  claims_int64 e -> Forall (fun r => clock (t_exp r)) rs -> local e = false ->
  (forall m m' r r', (m <= m')%nat -> nth_error rs m = Some r -> nth_error rs m' = Some r' -> t_nonce r <= t_nonce r') ->
  (i < j)%nat -> nth_error rs i = Some ri -> nth_error rs j = Some rj ->
  t_nonce rj = t_exp rj ->
  values ri = [v] -> values rj = [v] -> carries e v ii c -> Nonce c <> [] ->
  ~ (nth_error (serve e db rs) i = Some (Accept pi si) /\ nth_error (serve e db rs) j = Some (Accept pj sj)).
Proof.
  intros e rs db i j ri rj v pi pj si sj ii c HC HF HL HM Hij Hi Hj HT Hvi Hvj Hc HN [Ai Aj].
  assert (L : Exp c < t_nonce rj) by (eapply serve_twice; eauto).
  assert (G : forall rs db k r, nth_error rs k = Some r -> values r = [v] -> Forall (fun r => clock (t_exp r)) rs -> nth_error (serve e db rs) k = Some (Accept pj sj) -> t_exp r <= Exp c).
  { clear - HC HL Hc HN. induction rs as [|r0 rs IH]; intros db k r Hk Hv HF HA; [destruct k; discriminate|]. inversion HF; subst. destruct k as [|k].
    - cbn [nth_error serve] in Hk, HA. assert (r0 = r) by congruence. subst r0. unfold parseAuthorizationHeader in HA. rewrite Hv in HA.
      destruct (parseAuthorization e (t_exp r) (t_nonce r) v true db) as [o d] eqn:E. cbn [fst] in HA. assert (o = Accept pj sj) by congruence. subst o.
      eapply accept_row in E; eauto. destruct E as (_ & _ & _ & [E|[E _]]); [lia|congruence].
    - cbn [nth_error serve] in Hk, HA. eapply IH; eauto. }
  specialize (G rs db j rj Hj Hvj HF Aj). lia.
Qed.
Print Assumptions auth_nonce_once_partial.

(* But when the clock's second changes in between, the same token is accepted again: its row
   is deleted as expired by the nonce check, after the token has passed as unexpired. *)
Theorem auth_nonce_once_refuted : exists e rs i s,
  claims_int64 e /\ Forall (fun r => clock (t_exp r) /\ t_exp r <= t_nonce r <= t_exp r + 1) rs /\ local e = false /\
  rs = [Req 140 140 [demo_token [150; 9]] true; Req 150 151 [demo_token [150; 9]] true] /\
  serve e [] rs = [Accept i s; Accept i s].
Proof.
  exists (demo_env false true). eexists. exists (ID demo_key (bs "ed25519:" ++ b64encode demo_key)), [bs "a"; bs "b"].
  split; [apply demo_int64|]. split; [|split; [reflexivity|]; split; [reflexivity|vm_compute; reflexivity]].
  repeat constructor; cbn; try lia.
Qed.
Print Assumptions auth_nonce_once_refuted.
Example auth_nonce_case : serve (demo_env false true) [] [Req 140 140 [demo_token [150; 9]] true; Req 150 150 [demo_token [150; 9]] true]
  = [Accept (ID demo_key (bs "ed25519:" ++ b64encode demo_key)) [bs "a"; bs "b"]; Refuse].
Proof. vm_compute. reflexivity. Qed.
Example auth_nonce_carries : carries (demo_env false true) (demo_token [150; 9]) (ID demo_key (bs "ed25519:" ++ b64encode demo_key)) (Claims 150 [] [9] (bs "a b")).
Proof.
  set (h := TokenHeaderEdDSA (PublicKeyEd25519 demo_key)).
  assert (B1 : is_bytes (demo_marshal h)) by (vm_compute; repeat (constructor; [split; [discriminate|reflexivity]|]); constructor).
  assert (B2 : is_bytes [150; 9]) by (repeat (constructor; [split; [discriminate|reflexivity]|]); constructor).
  assert (B3 : is_bytes demo_key) by (vm_compute; repeat (constructor; [split; [discriminate|reflexivity]|]); constructor).
  exists (b64encode (demo_marshal h)), (b64encode [150; 9]), (b64encode (demo_sign (b64encode (demo_marshal h) ++ [46] ++ b64encode [150; 9]))), (demo_marshal h), [150; 9], h.
  split; [|split; [apply b64_no; auto|]; split; [apply b64_no; auto|]; split; [apply holds_encode; auto|]; split; [apply holds_encode; auto|]].
  - replace (demo_token [150; 9]) with (bs "Bearer " ++ b64encode (demo_marshal h) ++ [46] ++ b64encode [150; 9] ++ [46] ++ b64encode (demo_sign (b64encode (demo_marshal h) ++ [46] ++ b64encode [150; 9]))) by (vm_compute; reflexivity).
    apply bearer_made; auto; [discriminate|]. right. apply auth_made_case.
  - split; [reflexivity|]. split; [reflexivity|]. split; [reflexivity|].
    exists (PublicKeyEd25519 demo_key). repeat (split; [reflexivity|]). split; [|split; reflexivity]. apply quanta_spec, encode_quanta; auto.
Qed.

(* Panics: the handler crashes on a token exactly when its header says EdDSA and has no key. *)
Theorem auth_crash_exact : forall e t1 t2 values require db, (local e = true -> nonces e = false) ->
  (fst (parseAuthorizationHeader e t1 t2 values require db) = Crash <->
   exists v h p sg bh bp sig hd, values = [v] /\ bearer v (h ++ [46] ++ p ++ [46] ++ sg) /\ ~ In 46 h /\ ~ In 46 p /\
     holds h bh /\ holds p bp /\ holds sg sig /\ parse_header e bh = Some hd /\ Alg hd = bs "EdDSA" /\ Jwk hd = None).
Proof.
  intros e t1 t2 values require db HL. unfold parseAuthorizationHeader. destruct values as [|v [|w ws]].
  - split; [destruct require; discriminate|]. intros (v & ? & ? & ? & ? & ? & ? & ? & H & _). discriminate.
  - rewrite value_crash by auto. split.
    + intros (h & p & sg & bh & bp & sig & hd & H). exists v, h, p, sg, bh, bp, sig, hd. auto.
    + intros (v' & h & p & sg & bh & bp & sig & hd & E & H). assert (v' = v) by congruence. subst. exists h, p, sg, bh, bp, sig, hd. auto.
  - split; [discriminate|]. intros (v' & ? & ? & ? & ? & ? & ? & ? & H & _). discriminate.
Qed.
Print Assumptions auth_crash_exact.

(* So an unauthenticated request can crash it. *)
Theorem auth_always_answers_refuted : exists e t v, claims_int64 e /\ clock t /\
  parseAuthorizationHeader e t t [v] true [] = (Crash, []) /\
  v = bs "Bearer " ++ b64encode (demo_marshal (Header (bs "EdDSA") None)) ++ bs "..".
Proof. exists (demo_env false false), 100, (bs "Bearer Aw.."). split; [apply demo_int64|]. split; [unfold clock; lia|]. split; vm_compute; reflexivity. Qed.
Print Assumptions auth_always_answers_refuted.

(* A principal's string names it: it parses back to the same key and string. *)
Theorem principal_id_roundtrip : forall x i, ParseEd25519Key x = Some i -> ParseID (str i) = Some i.
Proof.
  intros x i H. unfold ParseEd25519Key in H. destruct (parseEd25519Key x) as [k|] eqn:E; [|discriminate]. assert (i = ID k (bs "ed25519:" ++ x)) by congruence. subst i.
  unfold ParseID. cbn [str]. replace (bs "ed25519:" ++ x) with (bs "ed25519" ++ 58 :: x) at 1 by reflexivity.
  rewrite (split_cons (bs "ed25519") x 58 0) by (cbn; intuition discriminate). cbn [splitN]. rewrite beq_refl, E. reflexivity.
Qed.
Print Assumptions principal_id_roundtrip.
Example principal_id_case : exists i, ParseEd25519Key (b64encode demo_key) = Some i /\ key i = demo_key /\ ParseID (bs "local") = Some LocalID /\ ParseID (bs "ed25519:x") = None.
Proof. eexists. repeat split; vm_compute; reflexivity. Qed.

(* But a key has several strings (the last character has two bits to spare): the two tokens are
   accepted, with different principal strings, though the account (indexed by the raw key) is
   the same. *)
Theorem principal_string_unique_refuted : exists x y i j,
  ParseEd25519Key x = Some i /\ ParseEd25519Key y = Some j /\ key i = key j /\ str i <> str j.
Proof.
  exists (b64encode demo_key), (removelast (b64encode demo_key) ++ bs "d"). do 2 eexists.
  split; [vm_compute; reflexivity|]. split; [vm_compute; reflexivity|]. split; [reflexivity|]. vm_compute. discriminate.
Qed.
Print Assumptions principal_string_unique_refuted.

(* And the account of the local principal is the account of the all-zero key. *)
Theorem principal_account_unique_refuted : exists i, ParseEd25519Key (b64encode (repeat 0 32)) = Some i /\ str i <> str LocalID /\ key i = key LocalID.
Proof. eexists. split; [vm_compute; reflexivity|]. split; [vm_compute; discriminate|reflexivity]. Qed.
Print Assumptions principal_account_unique_refuted.
