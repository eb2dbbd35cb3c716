(* RegistryProps.v: properties C17, C18, C19, C48 and C49 (service discovery,
   registry, service states across suspension). *)
From Verif Require Import BaseLemmas Registry RegistrySpec RegistryProofs RegistryProofs2 RegistryProofs3.

(* ---- C17 ---- *)

(* A request for n names is answered with the states of all services: those the
   program had, followed by the requested ones in order; the program's services
   are extended by exactly those names, and a new service is available exactly
   if its name stands for a discoverable factory. *)
Theorem discovery_request : forall look d h names rest,
  consistent d -> header_ok h -> is_bytes h -> Forall name_ok names -> len names < 65536 ->
  len (services d) + len names <= 256 -> fresh look d names ->
  exists d', handleServicesPacket look d (request h (len names) names rest) = (d', Ok (reply (map avail (services d')))) /\
    services d' = services d ++ map (fun n => Svc n [] (found look n)) names /\ consistent d'.
Proof.
  intros look d h names rest C H HB N L S F. pose proof (len_nonneg names). pose proof (len_nonneg (services d)).
  destruct (Discover_spec look d names C) as [D _]. destruct (D F) as (d' & E1 & E2 & E3).
  assert (K : length names = Z.to_nat (Z.min (len names) (256 - len (services d)))) by (unfold len in *; lia).
  rewrite (handle_request look d h (len names) names rest (length names) H HB); [|lia|lia|exact K].
  rewrite read_names_encoded by assumption. rewrite E1. exists d'. split; [|split; assumption]. rewrite bind_ok. f_equal.
  apply make_reply. unfold len in *. rewrite map_length, E2, app_length, map_length. lia.
Qed.
Print Assumptions discovery_request.

(* If a name stands for a service which the program already has, or twice for
   the same one, the request is an error and nothing is added. *)
Theorem discovery_duplicate : forall look d h names rest,
  consistent d -> header_ok h -> is_bytes h -> Forall name_ok names -> len names < 65536 ->
  len (services d) + len names <= 256 -> ~ fresh look d names ->
  exists d', handleServicesPacket look d (request h (len names) names rest) = (d', Err) /\ services d' = services d.
Proof.
  intros look d h names rest C H HB N L S F. pose proof (len_nonneg names). pose proof (len_nonneg (services d)).
  destruct (Discover_spec look d names C) as [_ D]. destruct (D F) as (d' & E1 & E2).
  assert (K : length names = Z.to_nat (Z.min (len names) (256 - len (services d)))) by (unfold len in *; lia).
  rewrite (handle_request look d h (len names) names rest (length names) H HB); [|lia|lia|exact K].
  rewrite read_names_encoded by assumption. rewrite E1. exists d'. split; [reflexivity|assumption].
Qed.
Print Assumptions discovery_duplicate.

(* Names beyond the 256th service are ignored: the request has the effect of
   the request without them. *)
Theorem discovery_limit : forall look d h names more rest,
  header_ok h -> is_bytes h -> Forall name_ok names -> len names + len more < 65536 ->
  len (services d) + len names = 256 ->
  handleServicesPacket look d (request h (len names + len more) (names ++ more) rest) =
  handleServicesPacket look d (request h (len names) names (encoded more ++ rest)).
Proof.
  intros look d h names more rest H HB N L S. pose proof (len_nonneg names). pose proof (len_nonneg (services d)). pose proof (len_nonneg more).
  rewrite (handle_request look d h _ _ _ (length names) H HB) by (unfold len in *; lia).
  rewrite (handle_request look d h _ _ _ (length names) H HB) by (unfold len in *; lia).
  replace (encoded (names ++ more) ++ rest) with (encoded names ++ encoded more ++ rest); [reflexivity|].
  unfold encoded. now rewrite map_app, concat_app, <- app_assoc.
Qed.
Print Assumptions discovery_limit.

(* A packet that is not such a request is never answered: a reply means that
   the packet was a well-formed request (names of 1 to 127 bytes), of which the
   first names up to the limit were added. *)
Theorem discovery_only_requests : forall look d req d' r,
  is_bytes req -> (8 <= length req)%nat -> consistent d -> len (services d) <= 256 ->
  handleServicesPacket look d req = (d', Ok r) ->
  exists h count names rest, header_ok h /\ Forall name_ok names /\ 0 <= count < 65536 /\
    req = request h count names rest /\ len names = Z.min count (256 - len (services d)) /\
    services d' = services d ++ map (fun n => Svc n [] (found look n)) names /\ r = reply (map avail (services d')).
Proof.
  intros look d req d' r H1 H2 H3 H4 H5.
  destruct (handle_inv look d req d' r H1 H2 H3 H4 H5) as (h & c & n & rest & A & B & C & D & E & F & G & I & J & K).
  exists h, c, n, rest. auto 10.
Qed.
Print Assumptions discovery_only_requests.

(* Over any history of requests (and packets), services keep their index, name
   and availability, and there are never more than 256. *)
Theorem discovery_history : forall look initial s st es s',
  StartServing look initial = Ok (s, st) -> len initial <= 256 -> Forall req_ok es -> serve_run s es = Some s' ->
  (exists new, services (dsc s') = services (dsc s) ++ new /\ Forall (fun x => name_ok (sname x)) new) /\
  map sname (services (dsc s)) = map fst initial /\ len (services (dsc s')) <= 256 /\ NoDup (used (services (dsc s'))).
Proof.
  intros look initial s st es s' HS HL RO HR. pose proof (SInv_start _ _ _ _ HS) as I0.
  assert (EQ : services (dsc s) = map (fun '(n, b) => Svc n b (look n)) initial).
  { unfold StartServing in HS. destruct (start_loop look [] initial) as [[l seen]| |] eqn:R; try discriminate.
    cbn [bind] in HS. injection HS as <- <-. destruct (start_loop_ok _ _ _ _ _ R) as (-> & _). reflexivity. }
  assert (L0 : len (services (dsc s)) <= 256) by (rewrite EQ; unfold len in *; rewrite map_length; exact HL).
  pose proof (SInv_run _ _ _ _ _ _ L0 RO I0 HR) as [[C1 _] (new & N1 & _ & N2) M _].
  split; [eauto|]. split; [|split; [now apply M|assumption]].
  rewrite EQ, map_map. apply map_ext. now intros [].
Qed.
Print Assumptions discovery_history.

(* No packet makes discovery panic while the program has at most 256 services. *)
Theorem discovery_no_panic : forall look d req,
  is_bytes req -> (8 <= length req)%nat -> consistent d -> len (services d) <= 256 ->
  snd (handleServicesPacket look d req) <> Panic.
Proof.
  intros look d req HB L8 C HL.
  destruct (handleServicesPacket look d req) as [d' r] eqn:E. cbn [snd]. intros ->.
  unfold handleServicesPacket in E.
  assert (DM : exists x, Domain req = Ok x) by (unfold Domain, get_le, OffsetDomain; rewrite slice_ok by lia; eexists; reflexivity).
  destruct DM as [dom DM]. rewrite DM in E. rewrite bind_ok in E. destruct (negb (dom =? DomainCall)) eqn:Q; [discriminate|].
  destruct (len req <? Z.of_nat ServicesHeaderSize) eqn:Q2; [discriminate|]. unfold ServicesHeaderSize, len in Q2.
  assert (CN : exists x, get_le OffsetServicesCount 2 req = Ok x /\ 0 <= x).
  { unfold get_le, OffsetServicesCount. rewrite slice_ok by lia. eexists. split; [reflexivity|].
    apply unle_bound. apply Forall_firstn, Forall_skipn. assumption. }
  destruct CN as (x & CN & X0). rewrite CN in E. rewrite bind_ok in E. unfold maxServices in E.
  match type of E with context [if ?a <? 0 then Panic else _] => replace (a <? 0) with false in E by (symmetry; apply Z.ltb_ge; destruct (_ >? _); lia) end.
  match type of E with context [read_names ?k ?b] => destruct (read_names k b) as [names| |] eqn:R end;
    [|discriminate|now apply (read_names_not_panic _ _ R)].
  destruct (Discover look d names) as [d1 r1] eqn:D. injection E as -> E.
  destruct (Discover_spec look d names C) as [S1 S2]. destruct r1 as [states| |]; [|discriminate|].
  - rewrite bind_ok in E.
    assert (F : fresh look d names).
    { unfold Discover in D. destruct (discover_loop look (discovered d) names) as [s' [l| |]] eqn:DL; try discriminate.
      destruct (discover_ok_inv _ _ _ _ _ DL) as (_ & F1 & F2 & _). split; [assumption|]. intros i Hi Q3. apply (F2 i Hi). now apply C. }
    destruct (S1 F) as (d2 & E2 & E3 & _). rewrite D in E2. injection E2 as -> ->.
    unfold DomainCall in E. rewrite make_reply in E; [discriminate|].
    destruct (read_names_inv _ _ _ (Forall_skipn _ _ _ HB) R) as (N1 & _).
    unfold len in *. rewrite map_length, E3, app_length, map_length, N1. pose proof (len_nonneg (services d)).
    destruct (_ >? _) eqn:Q4; lia.
  - unfold Discover in D. destruct (discover_loop look (discovered d) names) as [s' [l| |]] eqn:DL; try discriminate.
    apply (discover_not_panic look names (discovered d)). now rewrite DL.
Qed.
Print Assumptions discovery_no_panic.

(* Refuted in general: the number of services in a snapshot is not limited, and
   a program started from an (uploaded) snapshot with more than 256 services
   crashes the server with any discovery request. *)
Definition empty_request : bytes := [10;0;0;0; 255;255;0;0; 0;0].
Theorem discovery_snapshot_refuted : forall look initial s st,
  StartServing look initial = Ok (s, st) -> len initial > 256 ->
  snd (handleServicesPacket look (dsc s) empty_request) = Panic.
Proof.
  intros look initial s st HS HL.
  assert (EQ : len (services (dsc s)) = len initial).
  { unfold StartServing in HS. destruct (start_loop look [] initial) as [[l seen]| |] eqn:R; try discriminate.
    cbn [bind] in HS. injection HS as <- <-. destruct (start_loop_ok _ _ _ _ _ R) as (-> & _). cbn. unfold len. now rewrite map_length. }
  unfold handleServicesPacket. change (Domain empty_request) with (@Ok Z 0). rewrite bind_ok.
  change (negb (0 =? DomainCall)) with false. cbv beta iota.
  change (len empty_request <? Z.of_nat ServicesHeaderSize) with false. cbv beta iota.
  change (get_le OffsetServicesCount 2 empty_request) with (@Ok Z 0). rewrite bind_ok. cbv beta zeta. rewrite EQ. unfold maxServices.
  replace (len initial + 0 >? 256) with true by lia. replace (256 - len initial <? 0) with true by lia. reflexivity.
Qed.
Print Assumptions discovery_snapshot_refuted.

Definition nm (x : Z) : bytes := [x].
Definition fac1 := Factory 1 (nm 97) (nm 48) true.
Definition fac2 := Factory 2 (nm 98) (nm 48) false.
Definition look12 (n : bytes) : option factory := if beq n (nm 97) then Some fac1 else if beq n (nm 98) then Some fac2 else None.
Definition hdr : bytes := [0;0;0;0; 255;255;0;0].

Example discovery_case : consistent (Disc [] []) /\ header_ok hdr /\ fresh look12 (Disc [] []) [nm 97; nm 98; nm 99] /\
  snd (handleServicesPacket look12 (Disc [] []) (request hdr 3 [nm 97; nm 98; nm 99] [])) = Ok (reply [1; 0; 0]) /\
  ~ fresh look12 (Disc [] []) [nm 97; nm 97].
Proof.
  split; [split; [constructor|cbn; tauto]|]. split; [split; reflexivity|]. split; [split; cbn; [repeat constructor; tauto|tauto]|].
  split; [reflexivity|]. intros [N _]. cbn in N. inversion N as [|? ? Q _]. apply Q. now left.
Qed.

Example discovery_snapshot_case : exists s st, StartServing (fun _ => None) (repeat (nm 97, []) 257) = Ok (s, st).
Proof. eexists. eexists. reflexivity. Qed.

(* ---- C18 ---- *)

Inductive regop := ORegister (r : nat) (f : factory) (replace : bool) | OClone (r : nat).

(* Any history of registrations and clonings; a failing registration changes
   nothing. *)
Definition reg_step (vn vr : bytes -> bool) (h : heap) (o : regop) : heap :=
  match o with
  | ORegister r f b => match register vn vr h r f b with Ok h' => h' | _ => h end
  | OClone r => if Nat.ltb r (length h) then fst (clone h r) else h
  end.
Definition reg_run vn vr (ops : list regop) : heap := fold_left (reg_step vn vr) ops [Reg [] None].

Lemma reg_run_wf vn vr ops : wf (reg_run vn vr ops).
Proof.
  unfold reg_run. assert (W0 : wf [Reg [] None]).
  { intros [|[|i]] g q H P; cbn in H; try discriminate. injection H as <-. discriminate. }
  revert W0. generalize [Reg [] None]. induction ops as [|o t IH]; intros h W; cbn [fold_left]; [assumption|]. apply IH. destruct o as [r f b|r]; cbn [reg_step].
  - destruct (register vn vr h r f b) eqn:E; try assumption. eapply wf_register; eassumption.
  - destruct (Nat.ltb_spec r (length h)); [now apply wf_clone|assumption].
Qed.

(* A name or a revision: 1 to 127 bytes, of the right kinds of characters. *)
Definition valid_label (v : bytes -> bool) (s : bytes) : Prop := 1 <= len s <= 127 /\ v s = true.
Lemma checkString_spec v s : checkString v s = true <-> valid_label v s.
Proof.
  unfold checkString, valid_label. pose proof (Zle_0_nat (length s)) as L. fold (len s) in L.
  rewrite !andb_true_iff, !negb_true_iff, Z.eqb_neq, Z.gtb_ltb, Z.ltb_ge. intuition lia.
Qed.

(* A registration succeeds exactly if name and revision are valid and, unless it
   may replace, the registry itself has no service of that name (its parents
   may); then lookups of that name in the registry return it, whatever its
   parents have. *)
Theorem registry_register : forall vn vr ops r f replace,
  let h := reg_run vn vr ops in
  (r < length h)%nat ->
  match register vn vr h r f replace with
  | Ok h' => lookup h' r (fname f) = Some f /\ length h' = length h /\
             valid_label vn (fname f) /\ valid_label vr (frev f) /\
             (replace = true \/ forall g, nth_error h r = Some g -> mget (factories g) (fname f) = None)
  | Err => ~ valid_label vn (fname f) \/ ~ valid_label vr (frev f) \/
           replace = false /\ exists g f', nth_error h r = Some g /\ mget (factories g) (fname f) = Some f'
  | Panic => False
  end.
Proof.
  intros vn vr ops r f replace h R. pose proof (reg_run_wf vn vr ops) as W. fold h in W.
  destruct (register vn vr h r f replace) as [h'| |] eqn:E.
  - pose proof (wf_register _ _ _ _ _ _ _ W E) as W'. unfold register in E.
    destruct (checkString vn (fname f)) eqn:K1; [|discriminate]. destruct (checkString vr (frev f)) eqn:K2; [|discriminate]. cbn [negb] in E.
    apply checkString_spec in K1, K2. destruct (nth_error h r) as [g|] eqn:G; [|discriminate].
    destruct (negb replace && _) eqn:K3; [discriminate|]. injection E as <-. split; [|split; [apply upd_length|split; [exact K1|split; [exact K2|]]]].
    2:{ destruct replace; [now left|right]. intros g' E'. inversion E'; subst g'. cbn in K3. now destruct (mget (factories g) (fname f)). }
    rewrite (lookup_unfold _ r (Reg (mset (factories g) (fname f) f) (parent g))); [|assumption|now apply upd_same].
    cbn [factories]. rewrite mget_mset, beq_refl. reflexivity.
  - unfold register in E. destruct (checkString vn (fname f)) eqn:K1; [|left; intros X; apply checkString_spec in X; congruence].
    destruct (checkString vr (frev f)) eqn:K2; [|right; left; intros X; apply checkString_spec in X; congruence].
    cbn [negb] in E. destruct (nth_error h r) as [g|] eqn:G; [|discriminate]. right; right.
    destruct (mget (factories g) (fname f)) as [f'|] eqn:M; [|destruct replace; discriminate]. destruct replace; [discriminate|]. eauto.
  - unfold register in E. destruct (negb _); [discriminate|]. destruct (negb _); [discriminate|].
    destruct (nth_error h r) as [g|] eqn:G; [|now apply nth_error_None in G; lia]. destruct (negb replace && _); discriminate.
Qed.
Print Assumptions registry_register.

(* A registration affects only lookups of that name in the registry itself and
   in its descendants (clones of clones of it): never those of its parent. *)
Theorem registry_isolated : forall vn vr ops r f replace h' i name,
  let h := reg_run vn vr ops in
  register vn vr h r f replace = Ok h' -> ~ ancestor h i r \/ name <> fname f -> lookup h' i name = lookup h i name.
Proof. intros vn vr ops r f replace h' i name h E N. eapply lookup_register_other; eauto. apply reg_run_wf. Qed.
Print Assumptions registry_isolated.

(* A registry is a descendant only of registries created before it, so the
   parent of a clone is never affected by registrations in the clone. *)
Theorem registry_parent_unaffected : forall vn vr ops r f replace h' i name,
  let h := reg_run vn vr ops in
  register vn vr h r f replace = Ok h' -> (i < r)%nat -> lookup h' i name = lookup h i name.
Proof.
  intros vn vr ops r f replace h' i name h E L. eapply registry_isolated; [exact E|]. left. intros A.
  pose proof (reg_run_wf vn vr ops) as W. fold h in W. fold h in A. clear E.
  induction A as [r|r' g q a G P A IH]; [lia|]. pose proof (W _ _ _ G P). apply IH. lia.
Qed.
Print Assumptions registry_parent_unaffected.

(* A clone has the services of the original until it registers its own: lookup
   returns the registry's own service if it has one, otherwise what its parent's
   lookup returns. *)
Theorem registry_clone : forall vn vr ops r name,
  let h := reg_run vn vr ops in
  (r < length h)%nat ->
  lookup (fst (clone h r)) (snd (clone h r)) name = lookup h r name /\
  forall i, (i < length h)%nat -> lookup (fst (clone h r)) i name = lookup h i name.
Proof. intros vn vr ops r name h R. apply lookup_clone; [apply reg_run_wf|assumption]. Qed.
Print Assumptions registry_clone.

Theorem registry_lookup_shadowing : forall vn vr ops r g name,
  let h := reg_run vn vr ops in
  nth_error h r = Some g ->
  lookup h r name = match mget (factories g) name with
                    | Some f => Some f
                    | None => match parent g with Some q => lookup h q name | None => None end
                    end.
Proof. intros vn vr ops r g name h G. apply lookup_unfold; [apply reg_run_wf|assumption]. Qed.
Print Assumptions registry_lookup_shadowing.

(* The catalog has each name at most once, and consists of exactly the
   discoverable services that lookup finds (a revision is never empty). *)
Theorem registry_catalog : forall vn vr ops r,
  let h := reg_run vn vr ops in
  (r < length h)%nat ->
  NoDup (map fst (Catalog h r)) /\
  forall name rev, In (name, rev) (Catalog h r) <-> rev <> [] /\ exists f, lookup h r name = Some f /\ fdisc f = true /\ frev f = rev.
Proof.
  intros vn vr ops r h R. split; [apply filter_NoDup_fst, mkeys_NoDup|]. intros name rev. apply Catalog_In; [apply reg_run_wf|assumption].
Qed.
Print Assumptions registry_catalog.

Definition facx := Factory 7 (nm 97) (nm 49) false.
Example registry_case :
  let h := reg_run (fun _ => true) (fun _ => true) [ORegister 0 fac1 false; OClone 0; ORegister 1 facx false; ORegister 0 facx false] in
  lookup h 0 (nm 97) = Some fac1 /\ lookup h 1 (nm 97) = Some facx /\ Catalog h 0 = [(nm 97, nm 48)] /\ Catalog h 1 = [].
Proof. repeat split. Qed.

(* ---- C48: routing ---- *)

(* At any time, if the program has sent packets to the service with index c and
   that service is available, then its one instance was made by the factory
   found when the service was discovered (or restored), was given the saved
   state of that service, and has been handed exactly the packets sent to that
   index, in order. *)
Theorem serve_routing : forall look initial s st es s' c x f,
  StartServing look initial = Ok (s, st) -> len initial <= 256 -> Forall req_ok es -> serve_run s es = Some s' ->
  nth_error (services (dsc s')) c = Some x -> sfac x = Some f ->
  match iget (instances s') c with
  | Some (Some i) => ifac i = f /\ ihandled i = sent_to c es /\ icreated i = match nth_error initial c with Some (_, b) => b | None => [] end
  | Some None => False
  | None => sent_to c es = []
  end.
Proof.
  intros look initial s st es s' c x f HS HL RO HR HX HF. pose proof (SInv_start _ _ _ _ HS) as I0.
  assert (EQ : services (dsc s) = map (fun '(n, b) => Svc n b (look n)) initial).
  { unfold StartServing in HS. destruct (start_loop look [] initial) as [[l seen]| |] eqn:R; try discriminate.
    cbn [bind] in HS. injection HS as <- <-. destruct (start_loop_ok _ _ _ _ _ R) as (-> & _). reflexivity. }
  assert (L0 : len (services (dsc s)) <= 256) by (rewrite EQ; unfold len in *; rewrite map_length; exact HL).
  pose proof (SInv_run _ _ _ _ _ _ L0 RO I0 HR) as [_ (new & N1 & N2 & _) _ IC]. specialize (IC c). cbn [app] in IC.
  destruct (iget (instances s') c) as [[i|]|].
  - destruct IC as (y & A & B & C & D). rewrite HX in A. injection A as <-. rewrite HF in B. injection B as <-.
    split; [reflexivity|]. split; [assumption|]. rewrite C.
    destruct (nth_error initial c) as [[n b]|] eqn:NI.
    + assert (K : nth_error (services (dsc s)) c = Some (Svc n b (look n))) by (rewrite EQ; now rewrite (map_nth_error _ _ _ NI)).
      apply (nth_error_ext _ new) in K. rewrite <- N1, HX in K. injection K as ->. reflexivity.
    + apply nth_error_None in NI. rewrite N1, nth_error_app2 in HX by (rewrite EQ, map_length; assumption).
      rewrite Forall_forall in N2. apply N2. eapply nth_error_In. exact HX.
  - destruct IC as (y & A & B). congruence.
  - tauto.
Qed.
Print Assumptions serve_routing.

Example serve_routing_case : exists s st s' i,
  StartServing look12 [(nm 97, [5; 6])] = Ok (s, st) /\
  serve_run s [SDiscover look12 (request hdr 1 [nm 99] []); SPacket 0 [1]; SPacket 1 [2]; SPacket 0 [3]] = Some s' /\
  iget (instances s') 0 = Some (Some i) /\ i = Inst fac1 [5; 6] [[1]; [3]].
Proof. do 4 eexists. split; [reflexivity|]. split; [reflexivity|]. split; reflexivity. Qed.

(* ---- C19 ---- *)

(* The saved services are the discovered ones in index order, each with the
   state its instance returned, if that was not empty; services without an
   instance keep the state they had. *)
Theorem suspend_services_partial : forall s state,
  map fst (Suspend s state) = map sname (services (dsc s)) /\
  forall c x, nth_error (services (dsc s)) c = Some x ->
    match iget (instances s) c with
    | Some (Some _) => state c <> [] -> nth_error (Suspend s state) c = Some (sname x, state c)
    | _ => nth_error (Suspend s state) c = Some (sname x, sbuf x)
    end.
Proof.
  intros s state. split; [apply suspend_names|]. intros c x H. pose proof (suspend_nth (instances s) state (services (dsc s)) 0 c x H) as E.
  cbn [Nat.add] in E. unfold Suspend. rewrite E. destruct (iget (instances s) c) as [[i|]|]; try reflexivity.
  intros N. destruct (state c); [contradiction|reflexivity].
Qed.
Print Assumptions suspend_services_partial.

(* On restart, each service's instance is created with exactly the saved state. *)
Theorem restart_services : forall look saved,
  NoDup (used (map (fun '(n, b) => Svc n b (look n)) saved)) ->
  exists s st, StartServing look saved = Ok (s, st) /\ map sname (services (dsc s)) = map fst saved /\
    forall c n b, nth_error saved c = Some (n, b) ->
      iget (instances s) c = Some (match look n with Some f => Some (Inst f b []) | None => None end).
Proof.
  intros look saved N. destruct (start_loop_fresh look saved [] N) as (seen & E); [auto|].
  unfold StartServing. rewrite E. eexists. eexists. split; [reflexivity|]. cbn [dsc services instances]. split.
  - rewrite map_map. apply map_ext. now intros [].
  - intros c n b H. rewrite start_instances_get. cbn [Nat.ltb Nat.leb]. rewrite Nat.sub_0_r.
    rewrite (map_nth_error _ _ _ H). reflexivity.
Qed.
Print Assumptions restart_services.

(* Refuted: an instance restored from a nonempty state which later returns an
   empty one (nothing to save) gets its old state again at the next restart. *)
Theorem suspend_services_refuted : exists look initial s st es s' state,
  StartServing look initial = Ok (s, st) /\ serve_run s es = Some s' /\ state 0%nat = [] /\
  (exists i, iget (instances s') 0 = Some (Some i)) /\
  nth_error (Suspend s' state) 0 = Some (nm 97, [5; 6]).
Proof.
  exists look12, [(nm 97, [5; 6])]. do 2 eexists. exists [SPacket 0 [1]]. eexists. exists (fun _ => []).
  split; [reflexivity|]. split; [reflexivity|]. split; [reflexivity|]. split; [eexists; reflexivity|reflexivity].
Qed.
Print Assumptions suspend_services_refuted.

Example suspend_services_case : exists s st s',
  StartServing look12 [(nm 97, [5; 6]); (nm 99, [7])] = Ok (s, st) /\ serve_run s [SPacket 0 [1]] = Some s' /\
  Suspend s' (fun _ => [8]) = [(nm 97, [8]); (nm 99, [7])].
Proof. do 3 eexists. split; [reflexivity|]. split; reflexivity. Qed.

(* ---- C49: services that are not discoverable ---- *)

(* While a program runs, a service becomes available by discovery only if it is
   discoverable in the program's context. *)
Theorem discover_only_discoverable_partial : forall look d names d' states x f,
  consistent d -> Discover look d names = (d', Ok states) -> In x (services d') -> ~ In x (services d) -> sfac x = Some f ->
  look (sname x) = Some f /\ fdisc f = true.
Proof.
  intros look d names d' states x f C E HI HN HF. destruct (Discover_spec look d names C) as [S1 _].
  assert (F : fresh look d names).
  { unfold Discover in E. destruct (discover_loop look (discovered d) names) as [s' [l| |]] eqn:DL; try discriminate.
    destruct (discover_ok_inv _ _ _ _ _ DL) as (_ & F1 & F2 & _). split; [assumption|]. intros i Hi Q. apply (F2 i Hi). now apply C. }
  destruct (S1 F) as (d2 & E2 & E3 & _). rewrite E in E2. injection E2 as -> ->. rewrite E3 in HI. apply in_app_iff in HI.
  destruct HI as [HI|HI]; [contradiction|]. apply in_map_iff in HI. destruct HI as (n & <- & _). cbn [sfac sname new_svc] in *.
  unfold found in HF. destruct (look n) as [g|]; [|discriminate]. destruct (fdisc g) eqn:D; [|discriminate]. injection HF as ->. auto.
Qed.
Print Assumptions discover_only_discoverable_partial.

(* Refuted: a program which asks for an undiscoverable service by name is
   refused, but gets it by being suspended and resumed (or by being uploaded
   with a snapshot naming it). *)
Theorem undiscoverable_refuted : exists look s st s' d f s2 st2,
  StartServing look [] = Ok (s, st) /\ serve_run s [SDiscover look (request hdr 1 [nm 98] [])] = Some s' /\
  handleServicesPacket look (dsc s) (request hdr 1 [nm 98] []) = (d, Ok (reply [0])) /\
  StartServing look (Suspend s' (fun _ => [])) = Ok (s2, st2) /\ st2 = [1] /\
  look (nm 98) = Some f /\ fdisc f = false /\ iget (instances s2) 0 = Some (Some (Inst f [] [])).
Proof. exists look12. do 7 eexists. repeat (split; [reflexivity|]). reflexivity. Qed.
Print Assumptions undiscoverable_refuted.

(* Refuted: a program which asks twice for an undiscoverable service cannot be
   resumed after suspension: the restart fails. *)
Theorem undiscoverable_twice_refuted : exists look s st s',
  StartServing look [] = Ok (s, st) /\ serve_run s [SDiscover look (request hdr 2 [nm 98; nm 98] [])] = Some s' /\
  StartServing look (Suspend s' (fun _ => [])) = Err.
Proof. exists look12. do 3 eexists. repeat (split; [reflexivity|]). reflexivity. Qed.
Print Assumptions undiscoverable_twice_refuted.
