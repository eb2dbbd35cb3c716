From Verif Require Import BaseLemmas Registry RegistrySpec RegistryProofs RegistryProofs2.

(* What may happen while a program is served: a discovery request or a packet
   to a service.  The registry's content may change at any time, so each request
   comes with the lookup function of its time. *)
Inductive sevent :=
| SDiscover (look : bytes -> option factory) (req : bytes)
| SPacket (c : nat) (p : bytes).

(* None: an error or a panic has ended it.  Packets have been checked to be
   addressed to an existing service (C16). *)
Definition serve_step (s : serving) (e : sevent) : option serving :=
  match e with
  | SDiscover look req =>
      match handleServicesPacket look (dsc s) req with
      | (d, Ok _) => Some (Serving d (instances s))
      | _ => None
      end
  | SPacket c p =>
      if Nat.ltb c (length (services (dsc s))) then
        match serve_packet s c p with Ok s' => Some s' | _ => None end
      else None
  end.
Fixpoint serve_run (s : serving) (es : list sevent) : option serving :=
  match es with [] => Some s | e :: t => match serve_step s e with Some s' => serve_run s' t | None => None end end.

(* the packets sent to service c, in order *)
Fixpoint sent_to (c : nat) (es : list sevent) : list bytes :=
  match es with
  | [] => []
  | SPacket c' p :: t => if Nat.eqb c c' then p :: sent_to c t else sent_to c t
  | SDiscover _ _ :: t => sent_to c t
  end.

Lemma sent_to_app c a b : sent_to c (a ++ b) = sent_to c a ++ sent_to c b.
Proof. induction a as [|[look req|c' p] t IH]; cbn; [reflexivity|assumption|]. destruct (Nat.eqb c c'); cbn; now rewrite IH. Qed.

Lemma domain_call req : (8 <= length req)%nat -> is_bytes req -> Domain req = Ok 0 -> (10 <= length req)%nat ->
  exists h c, header_ok h /\ is_bytes h /\ 0 <= c < 65536 /\ req = h ++ le 2 c ++ skipn 10 req.
Proof.
  intros L8 HB HD L. exists (firstn 8 req), (unle (firstn 2 (skipn 8 req))).
  destruct req as [|a0 [|a1 [|a2 [|a3 [|a4 [|a5 [|a6 [|a7 [|a8 [|a9 r]]]]]]]]]]; cbn [length] in *; try lia.
  unfold Domain, get_le, OffsetDomain in HD. rewrite slice_ok in HD by (cbn [length]; lia). cbn [bind firstn skipn unle] in HD.
  rewrite Z.mul_0_r, Z.add_0_r in HD. change 15 with (Z.ones 4) in HD. rewrite Z.land_ones in HD by lia.
  cbn [firstn skipn unle].
  assert (B8 : is_byte a8 /\ is_byte a9).
  { unfold is_bytes in HB. do 8 (apply Forall_inv_tail in HB). split; [exact (Forall_inv HB)|exact (Forall_inv (Forall_inv_tail HB))]. }
  unfold is_byte in B8. split; [split; [reflexivity|cbn [nth]; injection HD as HD; exact HD]|]. split; [|split; [lia|]].
  - change [a0; a1; a2; a3; a4; a5; a6; a7] with (firstn 8 (a0 :: a1 :: a2 :: a3 :: a4 :: a5 :: a6 :: a7 :: a8 :: a9 :: r)).
    now apply Forall_firstn.
  - assert (Q : le 2 (a8 + 256 * (a9 + 256 * 0)) = [a8; a9])
      by (apply (le_unle [a8; a9]); repeat constructor; unfold is_byte; lia).
    rewrite Q. reflexivity.
Qed.

Lemma handle_domain look d req d' r : handleServicesPacket look d req = (d', Ok r) -> Domain req = Ok 0 /\ (10 <= length req)%nat.
Proof.
  intros E. unfold handleServicesPacket in E. destruct (Domain req) as [dom| |]; try discriminate. cbn [bind] in E.
  destruct (dom =? DomainCall) eqn:Q; [|discriminate]. unfold DomainCall in Q. cbn [negb] in E.
  destruct (len req <? Z.of_nat ServicesHeaderSize) eqn:Q2; [discriminate|].
  apply Z.eqb_eq in Q. apply Z.ltb_ge in Q2. unfold ServicesHeaderSize, len in Q2.
  split; [now subst|lia].
Qed.

Lemma bind_ok {A B} (a : A) (f : A -> res B) : bind (Ok a) f = f a.
Proof. reflexivity. Qed.

Lemma handle_inv look d req d' r : is_bytes req -> (8 <= length req)%nat -> consistent d -> len (services d) <= 256 ->
  handleServicesPacket look d req = (d', Ok r) ->
  exists h count names rest, header_ok h /\ is_bytes h /\ 0 <= count < 65536 /\ Forall name_ok names /\
    req = request h count names rest /\ len names = Z.min count (256 - len (services d)) /\
    fresh look d names /\ services d' = services d ++ map (new_svc look) names /\ consistent d' /\ r = reply (map avail (services d')).
Proof.
  intros HB L8 C HL E.
  pose proof (handle_domain _ _ _ _ _ E) as HD.
  destruct HD as [HD L10]. destruct (domain_call req L8 HB HD L10) as (h & c & H1 & H2 & H3 & H4).
  remember (skipn 10 req) as tl eqn:TL.
  assert (EQ : req = request h c [] tl) by exact H4.
  pose proof (handle_request look d h c [] tl _ H1 H2 H3 HL eq_refl) as HR. rewrite <- EQ, E in HR.
  change (encoded [] ++ tl) with tl in HR. symmetry in HR. clear E. rename HR into E.
  assert (HT : is_bytes tl) by (rewrite TL; now apply Forall_skipn).
  destruct (read_names _ tl) as [names| |] eqn:R; try discriminate.
  destruct (read_names_inv _ _ _ HT R) as (N1 & N2 & rest & N3).
  destruct (Discover look d names) as [d1 r1] eqn:D. injection E as -> E.
  assert (LN : len names = Z.min c (256 - len (services d))).
  { unfold len at 1. rewrite N1. pose proof (len_nonneg (services d)). lia. }
  exists h, c, names, rest. split; [assumption|]. split; [assumption|]. split; [assumption|]. split; [assumption|].
  split; [rewrite EQ, N3; reflexivity|]. split; [assumption|].
  destruct (Discover_spec look d names C) as [S1 S2].
  assert (F : fresh look d names).
  { destruct r1 as [st| |]; [|discriminate|discriminate]. clear E.
    unfold Discover in D. destruct (discover_loop look (discovered d) names) as [s' [l| |]] eqn:DL; try discriminate.
    destruct (discover_ok_inv _ _ _ _ _ DL) as (_ & F1 & F2 & _). split; [assumption|]. intros i Hi Q. apply (F2 i Hi). now apply C. }
  split; [assumption|]. destruct (S1 F) as (d2 & E2 & E3 & E4). rewrite D in E2. injection E2 as -> ->.
  split; [assumption|]. split; [assumption|]. rewrite bind_ok in E.
  assert (LR : len (map avail (services d2)) <= 65535).
  { unfold len in *. rewrite map_length, E3, app_length, map_length. clear - LN HL H3. lia. }
  rewrite (make_reply _ LR) in E. injection E as <-. reflexivity.
Qed.

(* The invariant of a run: initial services [init] and their states at start. *)
Record SInv (initial : list (bytes * bytes)) (l0 : list dsvc) (es : list sevent) (s : serving) : Prop := {
  si_cons : consistent (dsc s);
  si_pre : exists new, services (dsc s) = l0 ++ new /\ Forall (fun x => sbuf x = []) new /\ Forall (fun x => name_ok (sname x)) new;
  si_max : len l0 <= 256 -> len (services (dsc s)) <= 256;
  si_inst : forall c, match iget (instances s) c with
            | Some (Some i) => exists x, nth_error (services (dsc s)) c = Some x /\ sfac x = Some (ifac i) /\ icreated i = sbuf x /\ ihandled i = sent_to c es
            | Some None => exists x, nth_error (services (dsc s)) c = Some x /\ sfac x = None
            | None => (length l0 <= c)%nat /\ sent_to c es = []
            end }.

Lemma SInv_start look initial s st : StartServing look initial = Ok (s, st) -> SInv initial (services (dsc s)) [] s.
Proof.
  intros E. unfold StartServing in E. destruct (start_loop look [] initial) as [[l seen]| |] eqn:R; try discriminate.
  cbn [bind] in E. injection E as <- <-. destruct (start_loop_ok _ _ _ _ _ R) as (_ & N & _ & S). constructor; cbn [dsc services discovered instances].
  - split; [assumption|]. intros i. rewrite S. cbn. tauto.
  - exists []. rewrite app_nil_r. repeat split; constructor.
  - tauto.
  - intros c. rewrite start_instances_get. cbn [Nat.ltb Nat.leb]. rewrite Nat.sub_0_r. destruct (nth_error l c) as [x|] eqn:X.
    + cbn [start_instance snd]. destruct (sfac x) as [f|] eqn:F; exists x; cbn; auto.
    + split; [now apply nth_error_None in X|reflexivity].
Qed.

Definition req_ok (e : sevent) : Prop :=
  match e with SDiscover _ req => is_bytes req /\ (8 <= length req)%nat | SPacket _ _ => True end.

Lemma nth_error_ext {A} (a b : list A) c x : nth_error a c = Some x -> nth_error (a ++ b) c = Some x.
Proof. intros H. rewrite nth_error_app1; [assumption|]. apply nth_error_Some. congruence. Qed.

Lemma SInv_step initial l0 es s e s' : len l0 <= 256 -> req_ok e -> SInv initial l0 es s -> serve_step s e = Some s' -> SInv initial l0 (es ++ [e]) s'.
Proof.
  intros L0 RO [I1 I2 I3 I4] E. destruct e as [look req|c p]; cbn [serve_step] in E.
  - destruct (handleServicesPacket look (dsc s) req) as [d [r| |]] eqn:H; try discriminate. injection E as <-.
    destruct RO as [R1 R2]. destruct (handle_inv _ _ _ _ _ R1 R2 I1 (I3 L0) H) as (h & cnt & names & rest & K1 & K2 & K3 & K4 & K5 & K6 & K7 & K8 & K9 & K10).
    constructor; cbn [dsc instances].
    + assumption.
    + destruct I2 as (new & N1 & N2 & N3). exists (new ++ map (new_svc look) names). rewrite K8, N1, app_assoc.
      split; [reflexivity|]. split; apply Forall_app; (split; [assumption|]); apply Forall_map.
      * clear. induction names; constructor; auto.
      * exact K4.
    + intros _. rewrite K8. unfold len in *. rewrite app_length, map_length. specialize (I3 L0). lia.
    + intros c. specialize (I4 c). rewrite sent_to_app. cbn [sent_to]. rewrite app_nil_r.
      destruct (iget (instances s) c) as [[i|]|]; [|destruct I4 as (x & A & B)|assumption].
      * destruct I4 as (x & A & B). exists x. rewrite K8. split; [now apply nth_error_ext|assumption].
      * exists x. rewrite K8. split; [now apply nth_error_ext|assumption].
  - destruct (Nat.ltb_spec c (length (services (dsc s)))) as [LC|]; [|discriminate].
    destruct (serve_packet s c p) as [s1| |] eqn:P; try discriminate. injection E as <-. unfold serve_packet in P.
    assert (SN : forall c', sent_to c' (es ++ [SPacket c p]) = if Nat.eqb c' c then sent_to c es ++ [p] else sent_to c' es).
    { intros c'. rewrite sent_to_app. cbn [sent_to]. destruct (Nat.eqb_spec c' c) as [->|]; [reflexivity|apply app_nil_r]. }
    pose proof (I4 c) as IC. destruct (iget (instances s) c) as [[i|]|] eqn:G.
    + injection P as <-. constructor; cbn [dsc instances]; try assumption. intros c'. rewrite SN. cbn [iget].
      destruct (Nat.eqb_spec c' c) as [->|N]; [|apply I4]. cbn [ifac icreated ihandled].
      destruct IC as (x & A & B & C & D). exists x. rewrite D. auto.
    + injection P as <-. constructor; try assumption. intros c'. rewrite SN. destruct (Nat.eqb_spec c' c) as [->|N]; [|apply I4].
      rewrite G. assumption.
    + destruct (nth_error (services (dsc s)) c) as [d|] eqn:ND; [|discriminate]. destruct IC as [LC0 SC].
      assert (SB : sbuf d = []).
      { destruct I2 as (new & N1 & N2 & _). rewrite N1, nth_error_app2 in ND by assumption. rewrite Forall_forall in N2.
        apply N2. eapply nth_error_In. exact ND. }
      destruct (sfac d) as [f|] eqn:F; injection P as <-; constructor; cbn [dsc instances]; try assumption; intros c'; rewrite SN; cbn [iget];
        (destruct (Nat.eqb_spec c' c) as [->|N]; [|apply I4]).
      * exists d. cbn [ifac icreated ihandled]. rewrite SC. auto.
      * exists d. auto.
Qed.

Lemma SInv_run initial l0 es' : forall es s s', len l0 <= 256 -> Forall req_ok es' -> SInv initial l0 es s -> serve_run s es' = Some s' -> SInv initial l0 (es ++ es') s'.
Proof.
  induction es' as [|e t IH]; intros es s s' L0 RO I E; cbn [serve_run] in E.
  - injection E as <-. now rewrite app_nil_r.
  - destruct (serve_step s e) as [s1|] eqn:S; [|discriminate]. inversion RO; subst.
    replace (es ++ e :: t) with ((es ++ [e]) ++ t) by now rewrite <- app_assoc. eapply IH; eauto. eapply SInv_step; eauto.
Qed.
