(* UploadProps.v: properties C121 (a module's content is what its id says), C122 (the module size limit; streams are closed once),
   C123 (the source contract). *)
From Verif Require Import Upload BaseLemmas.

(** ** Specification *)

(* The stream yields exactly n bytes, unless it fails *)
Definition framed (n : Z) (s : stream) : Prop := s_eof s = true -> len (s_data s) = n.
(* The declared length is the length of the module: net/http sees to that when Content-Length is of the module itself *)
Definition honest (q : request) : Prop :=
  match q with
  | Put _ encodings n body => (encodings = [] \/ encodings = [Identity]) /\ framed n body
  | Frame _ n frame => framed n frame
  | FromHttp resp => 0 <= r_length resp /\ framed (r_length resp) (r_body resp)
  | FromIpfs resp => forall n, r_xlength resp = Some n -> framed n (r_body resp)
  end.
(* What net/http sees to *)
Definition delivered (q : request) : Prop :=
  match q with
  | Put _ _ n body => framed n body
  | Frame _ _ _ => True
  | FromHttp resp | FromIpfs resp => 0 <= r_length resp -> framed (r_length resp) (r_body resp)
  end.

Section Props.
Variable gunzip : stream -> option stream.
Variable hash : bytes -> Z.
Variable compiles : bytes -> bool.
Variable text_size : bytes -> Z.
Notation serve := (serve gunzip hash compiles text_size).
Notation serve_all := (serve_all gunzip hash compiles text_size).

(* Programs which are as they should be *)
Definition good (ps : programs) : Prop :=
  forall h p, lookup h ps = Some p ->
    hash (p_module p) = h /\ len (p_module p) = p_size p /\ p_text p = text_size (p_module p).

Lemma lookup_app h ps k p : lookup h (ps ++ [(k, p)]) =
  match lookup h ps with Some q => Some q | None => if k =? h then Some p else None end.
Proof.
  induction ps as [|[k' p'] ps IH]; cbn; auto.
  destruct (k' =? h); auto.
Qed.
Lemma good_register h p ps : good ps -> hash (p_module p) = h -> len (p_module p) = p_size p -> p_text p = text_size (p_module p) ->
  good (register_program h p ps).
Proof.
  intros G H1 H2 H3. unfold register_program. destruct (lookup h ps) eqn:E; auto.
  intros h' p'. rewrite lookup_app. destruct (lookup h' ps) eqn:E'.
  - intros [= <-]. now apply G.
  - destruct (h =? h') eqn:E2; try discriminate. intros [= <-]. apply Z.eqb_eq in E2. subst h'. auto.
Qed.

Lemma module_memory_exact n (b : bytes) : len b = n -> module_memory (module_capacity n) b = Some b.
Proof.
  intros H. unfold module_memory, module_capacity.
  assert (C : (if n >? 0 then n else 0) = n) by (pose proof (len_nonneg b); destruct (n >? 0) eqn:E; lia).
  rewrite C. destruct (len b >? n) eqn:E; [lia|]. replace (Z.to_nat (n - len b)) with 0%nat by lia.
  cbn. now rewrite app_nil_r.
Qed.
Lemma capacity_exact n (b : bytes) : len b = n -> module_capacity n = n.
Proof. intros H. pose proof (len_nonneg b). unfold module_capacity. destruct (n >? 0) eqn:E; lia. Qed.

Lemma load_unknown_good pol ps u u' ps' r : good ps ->
  (forall s, u_stream u = Some s -> framed (u_length u) s) ->
  load_unknown hash compiles text_size pol ps u = (u', ps', r) -> good ps'.
Proof.
  intros G F. unfold load_unknown, build_program, take_stream.
  destruct (u_stream u) as [s|] eqn:Es; [|intros [= <- <- <-]; auto].
  specialize (F s eq_refl). cbn [u_length u_hash close_stream].
  destruct (s_eof s) eqn:Ee.
  2:{ destruct (module_memory _ _); cbn; intros [= <- <- <-]; auto. }
  specialize (F Ee). rewrite (module_memory_exact _ _ F). cbn [negb].
  destruct (compiles (s_data s)); cbn [negb]; [|intros [= <- <- <-]; auto].
  destruct (text_size (s_data s) >? max_text pol); [intros [= <- <- <-]; auto|].
  assert (G' : good (register_program (hash (s_data s))
     (Program (s_data s) (module_capacity (u_length u)) (text_size (s_data s))) ps)).
  { apply good_register; cbn; auto. rewrite (capacity_exact _ _ F). auto. }
  destruct (u_hash u); [destruct (_ =? _); cbn [negb]|]; intros [= <- <- <-]; auto.
Qed.
Lemma uploading_good pol ps s n key ps' r c : good ps -> framed n s ->
  uploading hash compiles text_size pol ps s n key = (ps', r, c) -> good ps'.
Proof.
  intros G F. unfold uploading, upload_module. cbn [u_length u_hash].
  destruct (n >? max_module pol); [cbn; intros [= <- <- <-]; auto|].
  unfold load_known. destruct (lookup key ps) as [p|].
  - cbn [u_length]. destruct (n =? p_size p); cbn [negb]; [|intros [= <- <- <-]; auto].
    destruct (validate _ _ _) as [u [f|]]; [|destruct (p_text p >? max_text pol)]; intros E; injection E as <- <- <-; auto.
  - destruct (load_unknown _ _ _ _ _ _) as [[u ps1] r1] eqn:E. intros [= <- <- <-].
    eapply load_unknown_good in E; eauto. cbn. intros s0 [= <-]. auto.
Qed.
Lemma http_exact m resp s n c : http_open m resp = (Content s n, c) -> 0 <= r_length resp ->
  s = r_body resp /\ n = r_length resp.
Proof.
  unfold http_open. destruct (r_status resp =? 200).
  { destruct (_ <? 0); [discriminate|]. destruct (_ >? m); [discriminate|]. intros [= <- <- <-]; auto. }
  destruct (r_status resp =? 206).
  { destruct (parse_content_range _) as [[a b]|]; [|discriminate].
    destruct (negb (a =? b) || _); [discriminate|].
    destruct ((0 <=? _) && _) eqn:E; [discriminate|]. intros [= <- <- <-] H. split; auto. lia. }
  destruct (_ =? 404); discriminate.
Qed.
Lemma ipfs_exact m resp s n c : ipfs_open m resp = (Content s n, c) -> s = r_body resp /\ r_xlength resp = Some n.
Proof.
  unfold ipfs_open. destruct (r_status resp =? 200).
  { destruct (r_xlength resp); [|discriminate]. destruct (_ >? m); [discriminate|]. intros [= <- <- <-]; auto. }
  destruct (_ =? 404); discriminate.
Qed.
Lemma source_good pol ps o ps' r c : good ps ->
  (forall s n k, o = (Content s n, k) -> framed n s) ->
  source_module hash compiles text_size pol ps o = (ps', r, c) -> good ps'.
Proof.
  intros G F. unfold source_module. destruct o as [[s n|n|] k].
  - destruct (load_unknown _ _ _ _ _ _) as [[u ps1] r1] eqn:E. intros [= <- <- <-].
    eapply load_unknown_good in E; eauto. cbn. intros s0 [= <-]. eauto.
  - intros [= <- <- <-]; auto.
  - intros [= <- <- <-]; auto.
Qed.
Lemma serve_good pol ps q ps' r c : good ps -> honest q -> serve pol ps q = (ps', r, c) -> good ps'.
Proof.
  intros G. destruct q as [key encs n body|key n frame|resp|resp]; cbn [honest Upload.serve].
  - intros [He F]. destruct (n <? 0); [intros [= <- <- <-]; auto|].
    destruct He as [-> | ->]; cbn [decode_content]; intros E; eapply uploading_good in E; eauto.
  - intros F E. eapply uploading_good in E; eauto.
  - intros [H F] E. eapply source_good in E; eauto. intros s n k Eo.
    destruct (http_exact _ _ _ _ _ Eo H) as [-> ->]. auto.
  - intros F E. eapply source_good in E; eauto. intros s n k Eo.
    destruct (ipfs_exact _ _ _ _ _ Eo) as [-> Hx]. auto.
Qed.
Lemma good_history l : Forall (fun x => honest (snd x)) l -> good (serve_all l).
Proof.
  unfold Upload.serve_all. assert (G : good []) by (intros h p; discriminate).
  revert G. generalize (@nil (Z * program)).
  induction l as [|[pol q] l IH]; intros ps G F; cbn; auto.
  inversion F; subst. apply IH; auto.
  destruct (Upload.serve _ _ _ _ _ _ _) as [[ps' r] c] eqn:E. cbn. eapply serve_good; eauto.
Qed.

Lemma good_content ps h b n : good ps -> module_content ps h = Some (b, n) ->
  hash b = h /\ len b = n /\ exists p, lookup h ps = Some p /\ b = p_module p /\ n = p_size p /\ p_text p = text_size b.
Proof.
  intros G. unfold module_content. destruct (lookup h ps) as [p|] eqn:E; [|discriminate].
  destruct (G _ _ E) as (H1 & H2 & H3). rewrite <- H2. unfold len at 1. rewrite Nat2Z.id, firstn_all.
  intros [= <- <-]. split; [|split]; auto. exists p. auto.
Qed.

(** ** C121 *)

(* What is downloaded has the hash that it is named by, and the announced length; provided that the lengths which have been
   declared have been true. *)
Theorem module_content_partial : forall (l : list (policy * request)) h b n,
  Forall (fun x => honest (snd x)) l ->
  module_content (serve_all l) h = Some (b, n) ->
  hash b = h /\ len b = n.
Proof.
  intros l h b n F H. destruct (good_content _ _ _ _ (good_history _ F) H) as (H1 & H2 & _). auto.
Qed.

(* A plain upload within the limits is accepted, and then the same content is downloaded; provided as above, and that no other
   content has the same hash. *)
Theorem module_upload_partial : forall (l : list (policy * request)) pol b encodings,
  Forall (fun x => honest (snd x)) l -> encodings = [] \/ encodings = [Identity] ->
  (forall x, hash x = hash b -> x = b) ->
  compiles b = true -> len b <= max_module pol -> text_size b <= max_text pol ->
  exists ps, serve pol (serve_all l) (Put (hash b) encodings (len b) (Stream b true)) = (ps, Module (hash b), 1%nat) /\
    module_content ps (hash b) = Some (b, len b).
Proof.
  intros l pol b encs F He Hc C L T. pose proof (good_history _ F) as G. set (ps := serve_all l) in *.
  assert (D : decode_content gunzip encs (len b) (Stream b true) = Some (Stream b true)) by (destruct He as [-> | ->]; reflexivity).
  cbn [Upload.serve]. pose proof (len_nonneg b) as P. destruct (len b <? 0) eqn:E; [lia|]. rewrite D.
  unfold uploading, upload_module. cbn [u_length u_hash]. destruct (len b >? max_module pol) eqn:E1; [lia|].
  unfold load_known. destruct (lookup (hash b) ps) as [p|] eqn:El.
  - destruct (G _ _ El) as (H1 & H2 & H3). apply Hc in H1. cbn [u_length].
    rewrite <- H2, H1, Z.eqb_refl. cbn [negb]. cbn. rewrite Z.eqb_refl. cbn [negb].
    rewrite H3, H1. destruct (text_size b >? max_text pol) eqn:E2; [lia|]. eexists. split; [reflexivity|].
    unfold module_content. rewrite El, <- H2, H1. unfold len at 1. rewrite Nat2Z.id, firstn_all. auto.
  - unfold load_unknown, build_program. cbn [take_stream u_stream u_length u_hash close_stream s_data s_eof negb].
    rewrite (module_memory_exact (len b) b eq_refl), C, Z.eqb_refl. cbn [negb].
    destruct (text_size b >? max_text pol) eqn:E2; [lia|]. rewrite (capacity_exact (len b) b eq_refl).
    eexists. split; [reflexivity|]. unfold register_program. rewrite El. unfold module_content.
    rewrite lookup_app, El, Z.eqb_refl. cbn [p_size p_module]. unfold len at 1. rewrite Nat2Z.id, firstn_all. auto.
Qed.

(** ** C122 *)

Lemma size_register M h p ps : (forall k q, lookup k ps = Some q -> p_size q <= M /\ len (p_module q) <= M) ->
  p_size p <= M /\ len (p_module p) <= M ->
  forall k q, lookup k (register_program h p ps) = Some q -> p_size q <= M /\ len (p_module q) <= M.
Proof.
  intros G Hp k q. unfold register_program. destruct (lookup h ps) eqn:E; [apply G|].
  rewrite lookup_app. destruct (lookup k ps) eqn:E'; [intros [= <-]; eauto|].
  destruct (h =? k); [intros [= <-]; auto|discriminate].
Qed.
Lemma memory_size n b m : module_memory (module_capacity n) b = Some m ->
  len m = Z.max 0 n /\ len b <= Z.max 0 n /\ module_capacity n = Z.max 0 n.
Proof.
  unfold module_memory. assert (module_capacity n = Z.max 0 n) as -> by (unfold module_capacity; destruct (n >? 0) eqn:E; lia).
  destruct (len b >? Z.max 0 n) eqn:E; [discriminate|]. intros [= <-].
  rewrite len_app. unfold len at 2. rewrite repeat_length. lia.
Qed.
Lemma load_unknown_size M pol ps u u' ps' r : 0 <= M -> u_length u <= M ->
  (forall k q, lookup k ps = Some q -> p_size q <= M /\ len (p_module q) <= M) ->
  load_unknown hash compiles text_size pol ps u = (u', ps', r) ->
  forall k q, lookup k ps' = Some q -> p_size q <= M /\ len (p_module q) <= M.
Proof.
  intros M0 L G. unfold load_unknown, build_program, take_stream.
  destruct (u_stream u) as [s|]; [|intros [= <- <- <-]; auto].
  cbn [u_length u_hash close_stream].
  destruct (module_memory _ _) as [m|] eqn:Em; [|intros [= <- <- <-]; auto].
  apply memory_size in Em. destruct Em as (E1 & _ & E2). rewrite E2.
  destruct (s_eof s); cbn [negb]; [|intros [= <- <- <-]; auto].
  destruct (compiles (s_data s)); cbn [negb]; [|intros [= <- <- <-]; auto].
  destruct (text_size (s_data s) >? max_text pol); [intros [= <- <- <-]; auto|].
  assert (S : forall k q, lookup k (register_program (hash (s_data s)) (Program m (Z.max 0 (u_length u)) (text_size (s_data s))) ps)
    = Some q -> p_size q <= M /\ len (p_module q) <= M) by (apply size_register; auto; cbn; lia).
  destruct (u_hash u); [destruct (_ =? _); cbn [negb]|]; intros [= <- <- <-]; auto.
Qed.
Lemma source_size M pol ps o ps' r c : 0 <= M -> (forall s n k, o = (Content s n, k) -> n <= M) ->
  (forall k q, lookup k ps = Some q -> p_size q <= M /\ len (p_module q) <= M) ->
  source_module hash compiles text_size pol ps o = (ps', r, c) ->
  forall k q, lookup k ps' = Some q -> p_size q <= M /\ len (p_module q) <= M.
Proof.
  intros M0 L G. unfold source_module. destruct o as [[s n|n|] j].
  - destruct (load_unknown _ _ _ _ _ _) as [[u ps1] r1] eqn:E. intros [= <- <- <-].
    refine (load_unknown_size M _ _ _ _ _ _ M0 _ G E). cbn. eauto.
  - intros [= <- <- <-]; auto.
  - intros [= <- <- <-]; auto.
Qed.
Lemma http_limit m resp s n c : http_open m resp = (Content s n, c) -> n <= m.
Proof.
  unfold http_open. destruct (r_status resp =? 200).
  { destruct (_ <? 0); [discriminate|]. destruct (_ >? m) eqn:E; [discriminate|]. intros [= <- <- <-]; lia. }
  destruct (r_status resp =? 206).
  { destruct (parse_content_range _) as [[a b]|]; [|discriminate].
    destruct (negb (a =? b) || _) eqn:E0; [discriminate|].
    destruct ((0 <=? _) && _) eqn:E; [discriminate|]. intros [= <- <- <-]. lia. }
  destruct (_ =? 404); discriminate.
Qed.
Lemma ipfs_limit m resp s n c : ipfs_open m resp = (Content s n, c) -> n <= m.
Proof.
  unfold ipfs_open. destruct (r_status resp =? 200).
  { destruct (r_xlength resp); [|discriminate]. destruct (_ >? m) eqn:E; [discriminate|]. intros [= <- <- <-]; lia. }
  destruct (_ =? 404); discriminate.
Qed.
Lemma uploading_size M pol ps s n key ps' r c : 0 <= M -> max_module pol <= M ->
  (forall k q, lookup k ps = Some q -> p_size q <= M /\ len (p_module q) <= M) ->
  uploading hash compiles text_size pol ps s n key = (ps', r, c) ->
  forall k q, lookup k ps' = Some q -> p_size q <= M /\ len (p_module q) <= M.
Proof.
  intros M0 Hp G. unfold uploading, upload_module. cbn [u_length u_hash].
  destruct (n >? max_module pol) eqn:En; [cbn; intros [= <- <- <-]; auto|].
  unfold load_known. destruct (lookup key ps) as [p|].
  - cbn [u_length]. destruct (n =? p_size p); cbn [negb]; [|intros [= <- <- <-]; auto].
    destruct (validate _ _ _) as [u [f|]]; [|destruct (p_text p >? max_text pol)]; intros E; injection E as <- <- <-; auto.
  - destruct (load_unknown _ _ _ _ _ _) as [[u ps1] r1] eqn:E. intros [= <- <- <-].
    refine (load_unknown_size M _ _ _ _ _ _ M0 _ G E). cbn. lia.
Qed.
Lemma serve_size M pol ps q ps' r c : 0 <= M -> max_module pol <= M ->
  (forall k p, lookup k ps = Some p -> p_size p <= M /\ len (p_module p) <= M) ->
  serve pol ps q = (ps', r, c) ->
  forall k p, lookup k ps' = Some p -> p_size p <= M /\ len (p_module p) <= M.
Proof.
  intros M0 Hp G. destruct q as [key encs n body|key n frame|resp|resp]; cbn [Upload.serve].
  - destruct (n <? 0); [intros [= <- <- <-]; auto|].
    destruct (decode_content _ _ _ _); [|intros [= <- <- <-]; auto].
    intros E. exact (uploading_size M _ _ _ _ _ _ _ _ M0 Hp G E).
  - intros E. exact (uploading_size M _ _ _ _ _ _ _ _ M0 Hp G E).
  - intros E. refine (source_size M _ _ _ _ _ _ M0 _ G E). intros s n k Eo. apply http_limit in Eo. lia.
  - intros E. refine (source_size M _ _ _ _ _ _ M0 _ G E). intros s n k Eo. apply ipfs_limit in Eo. lia.
Qed.

(* No content, and no announced size, is greater than the limit; whatever is declared and sent. *)
Theorem module_size_limit : forall (l : list (policy * request)) M h b n,
  0 <= M -> Forall (fun x => max_module (fst x) <= M) l ->
  module_content (serve_all l) h = Some (b, n) ->
  len b <= M /\ n <= M.
Proof.
  intros l M h b n M0 F.
  assert (G : forall k p, lookup k (serve_all l) = Some p -> p_size p <= M /\ len (p_module p) <= M).
  { unfold Upload.serve_all. assert (G : forall k p, lookup k [] = Some p -> p_size p <= M /\ len (p_module p) <= M) by discriminate.
    revert G. generalize (@nil (Z * program)).
    induction l as [|[pol q] l IH]; intros ps G; cbn; auto.
    inversion F; subst. apply IH; auto.
    destruct (Upload.serve _ _ _ _ _ _ _) as [[ps' r] c] eqn:E. cbn. refine (serve_size M _ _ _ _ _ _ M0 _ G E). assumption. }
  unfold module_content. destruct (lookup h (serve_all l)) as [p|] eqn:E; [|discriminate].
  destruct (G _ _ E) as [G1 G2]. intros [= <- <-]. split; auto.
  unfold len in *. rewrite firstn_length. lia.
Qed.

Lemma load_unknown_close pol ps u u' ps' r s : u_stream u = Some s ->
  load_unknown hash compiles text_size pol ps u = (u', ps', r) -> u_closed (close_upload u') = S (u_closed u).
Proof.
  intros Hs. unfold load_unknown, build_program, take_stream. rewrite Hs. cbn [u_length u_hash close_stream].
  destruct (module_memory _ _) as [m|]; [|intros [= <- <- <-]; auto].
  destruct (s_eof s); cbn [negb]; [|intros [= <- <- <-]; auto].
  destruct (compiles (s_data s)); cbn [negb]; [|intros [= <- <- <-]; auto].
  destruct (text_size (s_data s) >? max_text pol); [intros [= <- <- <-]; auto|].
  destruct (u_hash u); [destruct (_ =? _); cbn [negb]|]; intros [= <- <- <-]; auto.
Qed.
Lemma uploading_close pol ps s n key : snd (uploading hash compiles text_size pol ps s n key) = 1%nat.
Proof.
  unfold uploading, upload_module. cbn [u_length u_hash].
  destruct (n >? max_module pol); [reflexivity|].
  unfold load_known. destruct (lookup key ps) as [p|].
  - cbn [u_length]. destruct (n =? p_size p); cbn [negb]; [|reflexivity].
    unfold validate. cbn [u_stream]. destruct (s_eof s); cbn [negb]; [|reflexivity].
    destruct (key =? hash (s_data s)); cbn [negb]; [|reflexivity].
    destruct (_ >? _); reflexivity.
  - destruct (load_unknown _ _ _ _ _ _) as [[u ps1] r1] eqn:E. cbn [snd].
    eapply load_unknown_close in E; [|reflexivity]. exact E.
Qed.
Lemma http_close m resp : snd (http_open m resp) = match fst (http_open m resp) with Content _ _ => 0%nat | _ => 1%nat end.
Proof.
  unfold http_open. destruct (r_status resp =? 200).
  { destruct (_ <? 0); [reflexivity|]. destruct (_ >? m); reflexivity. }
  destruct (r_status resp =? 206).
  { destruct (parse_content_range _) as [[a b]|]; [|reflexivity].
    destruct (negb (a =? b) || _); [reflexivity|]. destruct ((0 <=? _) && _); reflexivity. }
  destruct (_ =? 404); reflexivity.
Qed.
Lemma ipfs_close m resp : snd (ipfs_open m resp) = match fst (ipfs_open m resp) with Content _ _ => 0%nat | _ => 1%nat end.
Proof.
  unfold ipfs_open. destruct (r_status resp =? 200).
  { destruct (r_xlength resp); [|reflexivity]. destruct (_ >? m); reflexivity. }
  destruct (_ =? 404); reflexivity.
Qed.
Lemma source_close pol ps o : snd o = match fst o with Content _ _ => 0%nat | _ => 1%nat end ->
  snd (source_module hash compiles text_size pol ps o) = 1%nat.
Proof.
  destruct o as [[s n|n|] k]; cbn [fst snd]; intros ->; try reflexivity.
  unfold source_module. destruct (load_unknown _ _ _ _ _ _) as [[u ps1] r1] eqn:E. cbn [snd].
  eapply load_unknown_close in E; [|reflexivity]. exact E.
Qed.

(* The stream is closed exactly once, whatever happens. *)
Theorem module_stream_closed : forall pol ps q, snd (serve pol ps q) = 1%nat.
Proof.
  intros pol ps [key encs n body|key n frame|resp|resp]; cbn [Upload.serve].
  - destruct (n <? 0); [reflexivity|]. destruct (decode_content _ _ _ _); [apply uploading_close|reflexivity].
  - apply uploading_close.
  - apply source_close, http_close.
  - apply source_close, ipfs_close.
Qed.

(* A request that fails doesn't change the modules; one that succeeds doesn't change others, and its module can be downloaded. *)
Theorem module_upload_effect : forall pol ps q,
  match serve pol ps q with
  | (ps', Failed _, _) => ps' = ps
  | (ps', Module h, _) => module_content ps' h <> None /\
      (forall k, k <> h -> module_content ps' k = module_content ps k) /\
      (module_content ps h <> None -> ps' = ps)
  end.
Proof.
  assert (R : forall h p ps, module_content (register_program h p ps) h <> None /\
      (forall k, k <> h -> module_content (register_program h p ps) k = module_content ps k) /\
      (module_content ps h <> None -> register_program h p ps = ps)).
  { intros h p ps. unfold register_program, module_content. destruct (lookup h ps) eqn:E.
    - rewrite E. repeat split; auto. discriminate.
    - rewrite lookup_app, E, Z.eqb_refl. repeat split; try easy.
      intros k Hk. rewrite lookup_app. destruct (lookup k ps); auto.
      destruct (h =? k) eqn:E2; auto. apply Z.eqb_eq in E2. congruence. }
  assert (U : forall pol ps u u' ps' r, load_unknown hash compiles text_size pol ps u = (u', ps', r) ->
    match r with
    | Failed _ => ps' = ps
    | Module h => module_content ps' h <> None /\ (forall k, k <> h -> module_content ps' k = module_content ps k) /\
        (module_content ps h <> None -> ps' = ps)
    end).
  { intros pol ps u u' ps' r. unfold load_unknown. destruct (build_program _ _ _ _ _) as [u1 [f|[h p]]];
      intros [= <- <- <-]; auto. }
  assert (L : forall pol ps s n key, match uploading hash compiles text_size pol ps s n key with
    | (ps', Failed _, _) => ps' = ps
    | (ps', Module h, _) => module_content ps' h <> None /\ (forall k, k <> h -> module_content ps' k = module_content ps k) /\
        (module_content ps h <> None -> ps' = ps)
    end).
  { intros pol ps s n key. unfold uploading, upload_module. cbn [u_length u_hash].
    destruct (n >? max_module pol); [reflexivity|].
    unfold load_known. destruct (lookup key ps) as [p|] eqn:El.
    - cbn [u_length]. destruct (n =? p_size p); cbn [negb]; [|reflexivity].
      destruct (validate _ _ _) as [u [f|]]; [reflexivity|].
      destruct (_ >? _); [reflexivity|]. repeat split; auto.
      unfold module_content. rewrite El. discriminate.
    - destruct (load_unknown _ _ _ _ _ _) as [[u ps1] r1] eqn:E. apply U in E. destruct r1; auto. }
  assert (S : forall pol ps o, match source_module hash compiles text_size pol ps o with
    | (ps', Failed _, _) => ps' = ps
    | (ps', Module h, _) => module_content ps' h <> None /\ (forall k, k <> h -> module_content ps' k = module_content ps k) /\
        (module_content ps h <> None -> ps' = ps)
    end).
  { intros pol ps [[s n|n|] c]; cbn [source_module]; try reflexivity.
    destruct (load_unknown _ _ _ _ _ _) as [[u ps1] r1] eqn:E. apply U in E. destruct r1; auto. }
  intros pol ps [key encs n body|key n frame|resp|resp]; cbn [Upload.serve].
  - destruct (n <? 0); [reflexivity|]. destruct (decode_content _ _ _ _); [apply L|reflexivity].
  - apply L.
  - apply S.
  - apply S.
Qed.
(* Knowing a module's id isn't enough: whoever uploads it successfully has presented content that has the hash; in a supported
   encoding. *)
Theorem module_upload_content : forall pol ps q h, snd (fst (serve pol ps q)) = Module h ->
  match q with
  | Put key encodings n body => h = key /\ (encodings = [] \/ encodings = [Identity] \/ encodings = [Gzip]) /\
      exists s, decode_content gunzip encodings n body = Some s /\ s_eof s = true /\ hash (s_data s) = h
  | Frame key _ frame => h = key /\ s_eof frame = true /\ hash (s_data frame) = h
  | FromHttp resp | FromIpfs resp => s_eof (r_body resp) = true /\ hash (s_data (r_body resp)) = h
  end.
Proof.
  assert (B : forall pol ps u s, u_stream u = Some s -> forall h, snd (load_unknown hash compiles text_size pol ps u) = Module h ->
    s_eof s = true /\ hash (s_data s) = h /\ (forall k, u_hash u = Some k -> k = h)).
  { intros pol ps u s Hs h. unfold load_unknown, build_program, take_stream. rewrite Hs. cbn [u_length u_hash close_stream].
    destruct (module_memory _ _) as [m|]; [|discriminate].
    destruct (s_eof s); cbn [negb]; [|discriminate].
    destruct (compiles (s_data s)); cbn [negb]; [|discriminate].
    destruct (text_size (s_data s) >? max_text pol); [discriminate|].
    destruct (u_hash u) as [k|]; [destruct (k =? hash (s_data s)) eqn:E; cbn [negb]; [|discriminate]|]; cbn; intros [= <-];
      (split; [reflexivity|]; split; [reflexivity|]); intros k' [= <-]. lia. }
  assert (L : forall pol ps s n key h, snd (fst (uploading hash compiles text_size pol ps s n key)) = Module h ->
    h = key /\ s_eof s = true /\ hash (s_data s) = h).
  { intros pol ps s n key h. unfold uploading, upload_module. cbn [u_length u_hash].
    destruct (n >? max_module pol); [discriminate|].
    unfold load_known. destruct (lookup key ps) as [p|].
    - cbn [u_length]. destruct (n =? p_size p); cbn [negb]; [|discriminate].
      unfold validate. cbn [u_stream]. destruct (s_eof s); cbn [negb]; [|discriminate].
      destruct (key =? hash (s_data s)) eqn:E; cbn [negb]; [|discriminate].
      destruct (_ >? _); [discriminate|]. cbn. intros [= <-]. repeat split. lia.
    - specialize (B pol ps (Upload (Some s) n (Some key) 0) s eq_refl).
      destruct (load_unknown _ _ _ _ _ _) as [[u ps1] r1]. cbn [fst snd] in *. intros ->.
      destruct (B h eq_refl) as (B1 & B2 & B3). split; auto. symmetry. apply B3. reflexivity. }
  assert (S : forall pol ps o h, snd (fst (source_module hash compiles text_size pol ps o)) = Module h ->
    exists s n, fst o = Content s n /\ s_eof s = true /\ hash (s_data s) = h).
  { intros pol ps [[s n|n|] c] h; cbn [source_module]; try discriminate.
    specialize (B pol ps (Upload (Some s) n None c) s eq_refl).
    destruct (load_unknown _ _ _ _ _ _) as [[u ps1] r1]. cbn [fst snd] in *. intros ->.
    destruct (B h eq_refl) as (B1 & B2 & _). exists s, n. auto. }
  intros pol ps [key encs n body|key n frame|resp|resp] h; cbn [Upload.serve].
  - destruct (n <? 0); [discriminate|]. destruct (decode_content gunzip encs n body) as [s|] eqn:D; [|discriminate].
    intros H. destruct (L _ _ _ _ _ _ H) as (H1 & H2 & H3). split; auto. split; [|exists s; auto].
    destruct encs as [|[] [|? ?]]; try discriminate D; auto.
  - apply L.
  - intros H. destruct (S _ _ _ _ H) as (s & n & E & H1 & H2). destruct (http_open (max_module pol) resp) as [o c] eqn:Eo.
    cbn [fst] in E. subst o. enough (s = r_body resp) as <- by auto. revert Eo. unfold http_open.
    destruct (r_status resp =? 200).
    { destruct (_ <? 0); [discriminate|]. destruct (_ >? _); [discriminate|]. congruence. }
    destruct (r_status resp =? 206).
    { destruct (parse_content_range _) as [[a b]|]; [|discriminate].
      destruct (negb (a =? b) || _); [discriminate|]. destruct ((0 <=? _) && _); [discriminate|]. congruence. }
    destruct (_ =? 404); discriminate.
  - intros H. destruct (S _ _ _ _ H) as (s & n & E & H1 & H2). destruct (ipfs_open (max_module pol) resp) as [o c] eqn:Eo.
    cbn [fst] in E. subst o. destruct (ipfs_exact _ _ _ _ _ Eo) as [-> _]. auto.
Qed.
(* If there's no such object, the module isn't found; whatever the limit is *)
Theorem source_not_found : forall pol ps resp, r_status resp = 404 ->
  serve pol ps (FromHttp resp) = (ps, Failed NotFound, 1%nat) /\ serve pol ps (FromIpfs resp) = (ps, Failed NotFound, 1%nat).
Proof. intros pol ps resp H. cbn [Upload.serve]. unfold http_open, ipfs_open. rewrite H. auto. Qed.
End Props.
Print Assumptions module_content_partial.
Print Assumptions module_upload_partial.
Print Assumptions module_size_limit.
Print Assumptions module_stream_closed.
Print Assumptions module_upload_effect.
Print Assumptions module_upload_content.
Print Assumptions source_not_found.

(** ** Examples and refutations *)

(* An empty module, and its gzip encoding with a stored block: header (10), block header (5), content, checksum and length (8) *)
Definition wasm0 : bytes := [0; 97; 115; 109; 1; 0; 0; 0].
Definition gz (b : bytes) : bytes :=
  [31; 139; 8; 0; 0; 0; 0; 0; 0; 255] ++ [1; len b; 0; 255 - len b; 255] ++ b ++ repeat 0 4 ++ [len b; 0; 0; 0].
(* Decodes only what gz encodes *)
Definition gunzip0 (s : stream) : option stream :=
  let d := s_data s in
  Some (Stream (firstn (length d - 23) (skipn 15 d)) (s_eof s)).
(* Some function that tells the examples apart *)
Definition hash0 (b : bytes) : Z := fold_left (fun h x => h * 257 + x + 1) b 0.
Definition compiles0 (b : bytes) : bool := match b with 0 :: 97 :: 115 :: 109 :: 1 :: 0 :: 0 :: 0 :: _ => true | _ => false end.
Definition text0 (b : bytes) : Z := 100.
Definition pol0 : policy := Policy 1000 1000.
Notation serve0 := (serve gunzip0 hash0 compiles0 text0 pol0 []).
Notation serve_all0 := (serve_all gunzip0 hash0 compiles0 text0).

Example gunzip_gz : gunzip0 (Stream (gz wasm0) true) = Some (Stream wasm0 true).
Proof. reflexivity. Qed.
(* The theorems' hypotheses can be met: three honest requests, of which the last fails *)
Example honest_history :
  let l := [(pol0, Put (hash0 wasm0) [] 8 (Stream wasm0 true));
            (pol0, FromHttp (Response 200 9 None None (Stream (wasm0 ++ [7]) true)));
            (pol0, Frame (hash0 wasm0) 8 (Stream [0; 97] false))] in
  Forall (fun x => honest (snd x)) l /\
  module_content (serve_all0 l) (hash0 wasm0) = Some (wasm0, 8) /\
  module_content (serve_all0 l) (hash0 (wasm0 ++ [7])) = Some (wasm0 ++ [7], 9) /\
  length (serve_all0 l) = 2%nat.
Proof.
  cbv zeta. split; [|split; [|split]]; [|vm_compute; reflexivity..].
  repeat constructor; cbn; try (intros; discriminate); auto; lia.
Qed.
Example upload_hypotheses : exists hash : bytes -> Z, forall x, hash x = hash wasm0 -> x = wasm0.
Proof.
  exists (fun x => if list_eq_dec Z.eq_dec x wasm0 then 1 else 0). intros x. cbv beta.
  destruct (list_eq_dec Z.eq_dec x wasm0); auto. destruct (list_eq_dec Z.eq_dec wasm0 wasm0); easy.
Qed.

(* C121 doesn't hold in general, although net/http delivers all content as announced.  gzip: the encoded content's length is taken
   for the module's. *)
Theorem gzip_module_content_refuted : exists q h b n,
  delivered q /\ snd (fst (serve0 q)) = Module h /\
  module_content (fst (fst (serve0 q))) h = Some (b, n) /\ hash0 b <> h /\ n = 31 /\ b = wasm0 ++ repeat 0 23.
Proof.
  exists (Put (hash0 wasm0) [Gzip] 31 (Stream (gz wasm0) true)), (hash0 wasm0), (wasm0 ++ repeat 0 23), 31.
  split; [intros _; reflexivity|]. vm_compute. repeat split; auto. discriminate.
Qed.
(* Websocket: the length is whatever the caller says. *)
Theorem websocket_module_content_refuted : exists q h b n,
  delivered q /\ snd (fst (serve0 q)) = Module h /\
  module_content (fst (fst (serve0 q))) h = Some (b, n) /\ hash0 b <> h.
Proof.
  exists (Frame (hash0 wasm0) 10 (Stream wasm0 true)), (hash0 wasm0), (wasm0 ++ [0; 0]), 10.
  vm_compute. repeat split; auto. discriminate.
Qed.
(* IPFS: X-Content-Length is not compared with the content's length. *)
Theorem ipfs_module_content_refuted : exists q h b n,
  delivered q /\ snd (fst (serve0 q)) = Module h /\
  module_content (fst (fst (serve0 q))) h = Some (b, n) /\ hash0 b <> h.
Proof.
  exists (FromIpfs (Response 200 (-1) None (Some 10) (Stream wasm0 true))), (hash0 wasm0), (wasm0 ++ [0; 0]), 10.
  split; [cbn; lia|]. vm_compute. repeat split; auto. discriminate.
Qed.
(* HTTP source: neither is Content-Range, if Content-Length is missing. *)
Theorem http_module_content_refuted : exists q h b n,
  delivered q /\ snd (fst (serve0 q)) = Module h /\
  module_content (fst (fst (serve0 q))) h = Some (b, n) /\ hash0 b <> h.
Proof.
  exists (FromHttp (Response 206 (-1) (Some (9, 10)) None (Stream wasm0 true))), (hash0 wasm0), (wasm0 ++ [0; 0]), 10.
  split; [cbn; lia|]. vm_compute. repeat split; auto. discriminate.
Qed.
(* Because of which one user can prevent another from uploading a module: *)
Theorem module_upload_refuted : exists other q,
  honest q /\ snd (fst (serve0 q)) = Module (hash0 wasm0) /\
  snd (fst (serve gunzip0 hash0 compiles0 text0 pol0 (serve_all0 [(pol0, other)]) q)) = Failed SizeMismatch.
Proof.
  exists (Frame (hash0 wasm0) 10 (Stream wasm0 true)), (Put (hash0 wasm0) [] 8 (Stream wasm0 true)).
  split; [cbn; split; [auto|intros _; reflexivity]|]. vm_compute. auto.
Qed.
(* A gzip encoded module within the limit is not accepted if it is longer than its encoding (which is the purpose of encoding). *)
Definition gunzip1 (s : stream) : option stream := Some (Stream (wasm0 ++ repeat 7 100) true).
Theorem gzip_upload_refuted : exists b encoded,
  gunzip1 (Stream encoded true) = Some (Stream b true) /\ compiles0 b = true /\ len b <= max_module pol0 /\ text0 b <= max_text pol0 /\
  snd (fst (serve gunzip1 hash0 compiles0 text0 pol0 [] (Put (hash0 b) [Gzip] (len encoded) (Stream encoded true)))) = Failed BadContent /\
  snd (fst (serve gunzip1 hash0 compiles0 text0 pol0 [] (Put (hash0 b) [] (len b) (Stream b true)))) = Module (hash0 b).
Proof.
  exists (wasm0 ++ repeat 7 100), (repeat 1 40). split; [reflexivity|]. split; [reflexivity|].
  split; [vm_compute; discriminate|]. split; [vm_compute; discriminate|]. split; vm_compute; reflexivity.
Qed.
Print Assumptions gzip_module_content_refuted.
Print Assumptions websocket_module_content_refuted.
Print Assumptions ipfs_module_content_refuted.
Print Assumptions http_module_content_refuted.
Print Assumptions module_upload_refuted.
Print Assumptions gzip_upload_refuted.

(* In general: gzip encoded content is accepted only if its length is at most the encoded one's *)
Theorem gzip_upload : forall gunzip hash compiles text_size pol ps key n body s,
  gunzip body = Some s ->
  lookup key ps = None ->
  forall h, snd (fst (serve gunzip hash compiles text_size pol ps (Put key [Gzip] n body))) = Module h ->
  h = key /\ hash (s_data s) = h /\ len (s_data s) <= n.
Proof.
  intros gunzip hash compiles text_size pol ps key n body s Hg Hk h. cbn [serve].
  destruct (n <? 0) eqn:En; [discriminate|]. cbn [decode_content]. rewrite Hg.
  unfold uploading, upload_module. cbn [u_length u_hash].
  destruct (n >? max_module pol); [discriminate|].
  unfold load_known. rewrite Hk.
  unfold load_unknown, build_program. cbn [take_stream u_stream u_length u_hash close_stream].
  unfold max_bytes. rewrite (Z.max_r 0 n) by lia.
  destruct (len (s_data s) <=? n) eqn:El.
  - destruct (module_memory _ _); [|discriminate].
    destruct (s_eof s); cbn [negb]; [|discriminate].
    destruct (compiles (s_data s)); cbn [negb]; [|discriminate].
    destruct (_ >? _); [discriminate|].
    destruct (key =? hash (s_data s)) eqn:E; cbn [negb]; [|discriminate].
    cbn. intros [= <-]. apply Z.eqb_eq in E. repeat split; auto. lia.
  - cbn [s_data s_eof negb]. destruct (module_memory _ _); discriminate.
Qed.
Example gzip_upload_example : snd (fst (serve0 (Put (hash0 wasm0) [Gzip] 31 (Stream (gz wasm0) true)))) = Module (hash0 wasm0).
Proof. vm_compute. reflexivity. Qed.
Print Assumptions gzip_upload.

(** ** C123 *)

(* server/source.go: content only if its length is within the limit; zero length without content means that there isn't any;
   nonzero means that it's too long.  If the content isn't returned, it has been closed. *)
Theorem http_source : forall maxSize resp, 0 <= maxSize -> r_length resp < 2 ^ 63 ->
  (forall a b, r_range resp = Some (a, b) -> a < 2 ^ 63 /\ b < 2 ^ 63) ->
  match http_open maxSize resp with
  | (Content s n, closed) => 0 <= n <= maxSize /\ s = r_body resp /\ closed = 0%nat /\
      (0 <= r_length resp -> n = r_length resp) /\
      (r_status resp = 200 \/ r_status resp = 206 /\ r_range resp = Some (n - 1, n))
  | (NoContent n, closed) => closed = 1%nat /\ (n = 0 <-> r_status resp = 404) /\
      (n = 0 \/ n > maxSize \/
       0 < n <= maxSize /\ r_status resp = 206 /\ exists a, r_range resp = Some (a, n) /\ 0 <= a < n - 1)
  | (OpenError, closed) => closed = 1%nat
  end.
Proof.
  intros m resp M0 L R. unfold http_open. destruct (r_status resp =? 200) eqn:E2.
  { destruct (_ <? 0) eqn:E0; [reflexivity|]. destruct (_ >? m) eqn:E1; [|repeat split; auto; lia].
    split; [reflexivity|]. split; lia. }
  destruct (r_status resp =? 206) eqn:E6.
  { unfold parse_content_range. destruct (r_range resp) as [[a b]|] eqn:Er; [|reflexivity].
    destruct (R _ _ eq_refl) as [Ra Rb].
    destruct ((a <? 0) || (b <? 0) || (b <=? a)) eqn:E0; [reflexivity|].
    rewrite (s64_id (a + 1)) by lia.
    destruct (negb (a + 1 =? b) || (b >? m)) eqn:E1.
    - split; [reflexivity|]. split; [lia|]. destruct (Z_gt_le_dec b m) as [Hg|Hg]; [auto|].
      right. right. repeat split; try lia. exists a. split; auto. lia.
    - destruct ((0 <=? r_length resp) && _) eqn:E; [reflexivity|].
      split; [lia|]. split; [auto|]. split; [auto|]. split; [lia|]. right. split; [lia|]. do 2 f_equal. lia. }
  destruct (r_status resp =? 404) eqn:E4; [|reflexivity]. split; [reflexivity|]. split; lia.
Qed.
Example http_source_example :
  http_open 100 (Response 200 8 None None (Stream wasm0 true)) = (Content (Stream wasm0 true) 8, 0%nat) /\
  http_open 100 (Response 206 (-1) (Some (7, 8)) None (Stream wasm0 true)) = (Content (Stream wasm0 true) 8, 0%nat) /\
  http_open 7 (Response 206 7 (Some (6, 8)) None (Stream (firstn 7 wasm0) true)) = (NoContent 8, 1%nat) /\
  http_open 7 (Response 404 (-1) None None (Stream [] true)) = (NoContent 0, 1%nat).
Proof. vm_compute. auto. Qed.
(* Whatever fits is returned, if the HTTP server answers with the whole *)
Theorem http_source_found : forall maxSize resp n, 0 <= n <= maxSize -> n < 2 ^ 63 ->
  r_status resp = 200 /\ r_length resp = n \/
  r_status resp = 206 /\ 0 < n /\ r_range resp = Some (n - 1, n) /\ (r_length resp = n \/ r_length resp < 0) ->
  http_open maxSize resp = (Content (r_body resp) n, 0%nat).
Proof.
  intros m resp n Hn L [[Hs Hl]|(Hs & H0 & Hr & Hl)]; unfold http_open; rewrite Hs; cbn [Z.eqb Pos.eqb].
  - rewrite Hl. destruct (n <? 0) eqn:E; [lia|]. destruct (n >? m) eqn:E1; [lia|]. reflexivity.
  - rewrite Hr. unfold parse_content_range.
    destruct ((n - 1 <? 0) || (n <? 0) || (n <=? n - 1)) eqn:E; [lia|].
    rewrite s64_id by lia. replace (n - 1 + 1) with n by lia. rewrite Z.eqb_refl.
    destruct (n >? m) eqn:E1; [lia|]. cbn [negb orb].
    destruct ((0 <=? r_length resp) && negb (r_length resp =? n)) eqn:E2; [lia|]. reflexivity.
Qed.
Example http_source_found_example : exists resp, r_status resp = 206 /\ r_range resp = Some (8 - 1, 8) /\ r_length resp = 8.
Proof. exists (Response 206 8 (Some (7, 8)) None (Stream wasm0 true)). auto. Qed.
(* An HTTP server may answer with only a part of the requested range: then the module is reported as too long, although it isn't *)
Theorem http_too_long_refuted : exists resp n, n <= 100 /\ r_range resp = Some (3, n) /\
  http_open 100 resp = (NoContent n, 1%nat) /\
  forall gunzip hash compiles text_size ps, snd (fst (serve gunzip hash compiles text_size (Policy 100 0) ps (FromHttp resp))) = Failed TooLong.
Proof.
  exists (Response 206 4 (Some (3, 8)) None (Stream (firstn 4 wasm0) true)), 8.
  split; [lia|]. split; [reflexivity|]. split; reflexivity.
Qed.
Theorem ipfs_source : forall maxSize resp, 0 <= maxSize ->
  match ipfs_open maxSize resp with
  | (Content s n, closed) => n <= maxSize /\ s = r_body resp /\ closed = 0%nat /\ r_status resp = 200 /\ r_xlength resp = Some n
  | (NoContent n, closed) => closed = 1%nat /\ (n = 0 <-> r_status resp = 404) /\ (n = 0 \/ n > maxSize)
  | (OpenError, closed) => closed = 1%nat /\ r_status resp <> 404 /\ (r_status resp <> 200 \/ r_xlength resp = None)
  end.
Proof.
  intros m resp M0. unfold ipfs_open. destruct (r_status resp =? 200) eqn:E2.
  { destruct (r_xlength resp) as [n|]; [|repeat split; auto; lia].
    destruct (n >? m) eqn:E; repeat split; auto; lia. }
  destruct (r_status resp =? 404) eqn:E4; repeat split; auto; lia.
Qed.
Example ipfs_source_example :
  ipfs_open 100 (Response 200 (-1) None (Some 8) (Stream wasm0 true)) = (Content (Stream wasm0 true) 8, 0%nat) /\
  ipfs_open 7 (Response 200 (-1) None (Some 8) (Stream wasm0 true)) = (NoContent 8, 1%nat).
Proof. vm_compute. auto. Qed.
(* A negative length is passed on *)
Theorem ipfs_length_refuted : exists resp, ipfs_open 100 resp = (Content (r_body resp) (-1), 0%nat).
Proof. exists (Response 200 8 None (Some (-1)) (Stream wasm0 true)). reflexivity. Qed.
Print Assumptions http_source.
Print Assumptions http_source_found.
Print Assumptions http_too_long_refuted.
Print Assumptions ipfs_source.
Print Assumptions ipfs_length_refuted.
