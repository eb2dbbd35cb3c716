From Verif Require Import BaseLemmas Packet PacketProofs Registry RegistrySpec.

Lemma beq_true a b : beq a b = true <-> a = b.
Proof. unfold beq. destruct (list_eq_dec Z.eq_dec a b); split; congruence. Qed.
Lemma beq_refl a : beq a a = true.
Proof. now apply beq_true. Qed.

(* ---- parsing ---- *)

Lemma read_names_encoded names rest : Forall name_ok names ->
  read_names (length names) (encoded names ++ rest) = Ok names.
Proof.
  intros H. induction H as [|n t Hn Ht IH]; [reflexivity|]. cbn [length read_names encoded map concat].
  cbn [app]. unfold name_ok in Hn.
  replace ((len n =? 0) || (len n >? 127)) with false by lia.
  rewrite <- !app_assoc. replace (len (n ++ _) <? len n) with false by (symmetry; apply Z.ltb_ge; rewrite len_app; pose proof (len_nonneg (concat (map (fun n0 => len n0 :: n0) t) ++ rest)); lia).
  unfold len at 1 3. rewrite Nat2Z.id. rewrite skipn_app_exact, firstn_app_exact by reflexivity.
  fold (encoded t). rewrite IH. reflexivity.
Qed.

Lemma read_names_inv n : forall buf l, is_bytes buf -> read_names n buf = Ok l ->
  length l = n /\ Forall name_ok l /\ exists rest, buf = encoded l ++ rest.
Proof.
  induction n as [|n IH]; intros buf l HB E; cbn [read_names] in E.
  - injection E as <-. repeat split; [constructor|]. now exists buf.
  - destruct buf as [|c buf]; [discriminate|]. destruct ((c =? 0) || (c >? 127)) eqn:C; [discriminate|].
    destruct (len buf <? c) eqn:L; [discriminate|]. inversion HB as [|? ? Hc Hb]; subst. unfold is_byte in Hc.
    destruct (read_names n (skipn (Z.to_nat c) buf)) as [l'| |] eqn:R; try discriminate. cbn [bind] in E. injection E as <-.
    destruct (IH _ _ (Forall_skipn _ _ _ Hb) R) as (H1 & H2 & rest & H3).
    assert (LN : len (firstn (Z.to_nat c) buf) = c) by (unfold len in *; rewrite firstn_length; lia).
    split; [cbn; lia|]. split; [constructor; [unfold name_ok; lia|assumption]|].
    exists rest. cbn [encoded map concat app]. rewrite LN. f_equal. rewrite <- app_assoc. fold (encoded l'). rewrite <- H3.
    now rewrite firstn_skipn.
Qed.

Lemma read_names_not_panic n : forall buf, read_names n buf <> Panic.
Proof.
  induction n as [|n IH]; intros buf; cbn [read_names]; [discriminate|]. destruct buf as [|c buf]; [discriminate|].
  destruct (_ || _); [discriminate|]. destruct (_ <? _); [discriminate|].
  destruct (read_names n _) eqn:R; cbn [bind]; [discriminate|discriminate|exfalso; eapply IH; exact R].
Qed.

(* ---- reply ---- *)

Lemma make_reply states : len states <= 65535 -> makeServicesPacket 0 states = Ok (reply states).
Proof.
  intros H. unfold makeServicesPacket, reply. pose proof (len_nonneg states).
  unfold Make, SetCode, SetSize, OffsetCode, OffsetDomain, OffsetSize, OffsetServicesCount, ServicesHeaderSize.
  assert (EZ : zeros (10 + length states) = [0;0;0;0;0;0;0;0;0;0] ++ zeros (length states)) by reflexivity.
  rewrite EZ. change (le 2 (u16 (-1))) with [255; 255]. change (le 1 0) with [0].
  rewrite put_at_ok by (rewrite app_length; cbn [length app OffsetCode]; lia).
  cbn [bind]. cbn [app firstn skipn OffsetCode length Nat.add].
  rewrite put_at_ok by (cbn [length]; lia). cbn [bind app firstn skipn length Nat.add].
  match goal with |- context [len ?x >? _] => set (q := x) end.
  assert (LQ : len q = 10 + len states).
  { unfold q, len. cbn [length]. unfold zeros. rewrite repeat_length. lia. }
  rewrite LQ. replace (10 + len states >? 4294967295) with false by lia.
  rewrite u32_id by lia. rewrite put_at_ok by (rewrite length_le; unfold q; cbn [length OffsetSize]; lia).
  cbn [bind]. rewrite length_le. unfold q. cbn [firstn skipn app Nat.add OffsetSize].
  rewrite u16_id by lia.
  generalize (le 4 (10 + len states)) (length_le 4 (10 + len states)). intros l4 H4.
  destruct l4 as [|a [|b [|c [|e [|]]]]]; cbn [length] in H4; try lia.
  generalize (le 2 (len states)) (length_le 2 (len states)). intros l2 H2.
  destruct l2 as [|f [|g [|]]]; cbn [length] in H2; try lia.
  rewrite put_at_ok by (cbn [length app OffsetServicesCount]; lia). cbn [bind].
  cbn [app firstn skipn OffsetServicesCount length Nat.add].
  rewrite put_at_ok by (cbn [length app ServicesHeaderSize]; unfold zeros; rewrite repeat_length; lia).
  cbn [app firstn skipn ServicesHeaderSize length Nat.add].
  rewrite skipn_all2 by (unfold zeros; rewrite repeat_length; lia). now rewrite app_nil_r.
Qed.

(* ---- Discover ---- *)

Definition new_svc (look : bytes -> option factory) (n : bytes) : dsvc := Svc n [] (found look n).

Lemma used_app a b : used (a ++ b) = used a ++ used b.
Proof. induction a as [|s t IH]; cbn; [reflexivity|]. destruct (sfac s); cbn; now rewrite IH. Qed.

Lemma used_new look names : used (map (new_svc look) names) = found_ids look names.
Proof. induction names as [|n t IH]; cbn; [reflexivity|]. destruct (found look n); now rewrite IH. Qed.

Lemma existsb_In i l : existsb (Nat.eqb i) l = true <-> In i l.
Proof.
  rewrite existsb_exists. split; [intros (x & H & E); apply Nat.eqb_eq in E; now subst|].
  intros H. exists i. split; [assumption|apply Nat.eqb_refl].
Qed.

Lemma discover_fresh look names : forall seen,
  NoDup (found_ids look names) -> (forall i, In i (found_ids look names) -> ~ In i seen) ->
  exists seen', discover_loop look seen names = (seen', Ok (map (new_svc look) names)) /\
    forall i, In i seen' <-> In i seen \/ In i (found_ids look names).
Proof.
  induction names as [|n t IH]; intros seen ND F; cbn [discover_loop found_ids map].
  - exists seen. split; [reflexivity|]. cbn. tauto.
  - unfold found in *. cbn [found_ids] in ND, F. unfold found in ND, F. unfold new_svc at 1, found.
    destruct (look n) as [f|]; [destruct (fdisc f) eqn:D|].
    + destruct (existsb (Nat.eqb (fid f)) seen) eqn:X.
      { exfalso. apply existsb_In in X. apply (F (fid f)); [now left|assumption]. }
      inversion ND as [|? ? N1 N2]; subst.
      destruct (IH (fid f :: seen) N2) as (s' & E & S).
      { intros i Hi [<-|Hs]; [contradiction|]. apply (F i); [now right|assumption]. }
      rewrite E. cbn [bind]. exists s'. split; [reflexivity|]. intros i. rewrite S. cbn. intuition.
    + destruct (IH seen ND F) as (s' & E & S). rewrite E. cbn [bind]. eauto.
    + destruct (IH seen ND F) as (s' & E & S). rewrite E. cbn [bind]. eauto.
Qed.

Lemma discover_ok_inv look names : forall seen seen' new, discover_loop look seen names = (seen', Ok new) ->
  new = map (new_svc look) names /\ NoDup (found_ids look names) /\ (forall i, In i (found_ids look names) -> ~ In i seen) /\
  (forall i, In i seen' <-> In i seen \/ In i (found_ids look names)).
Proof.
  induction names as [|n t IH]; intros seen seen' new E; cbn [discover_loop] in E.
  - injection E as <- <-. cbn. repeat split; [constructor|tauto|tauto|tauto].
  - cbn [found_ids map]. unfold new_svc at 1, found. destruct (look n) as [f|]; [destruct (fdisc f) eqn:D|].
    + destruct (existsb (Nat.eqb (fid f)) seen) eqn:X; [discriminate|].
      destruct (discover_loop look (fid f :: seen) t) as [s' r] eqn:R. destruct r as [l| |]; try discriminate.
      cbn [bind] in E. injection E as <- <-. destruct (IH _ _ _ R) as (-> & N & F & S).
      assert (XN : ~ In (fid f) seen) by (intros Q; apply existsb_In in Q; congruence).
      split; [reflexivity|]. split; [constructor; [intros Q; apply (F _ Q); now left|assumption]|].
      split; [intros i [<-|Hi]; [assumption|]; intros Q; apply (F i Hi); now right|].
      intros i. rewrite S. cbn. intuition.
    + destruct (discover_loop look seen t) as [s' r] eqn:R. destruct r as [l| |]; try discriminate.
      cbn [bind] in E. injection E as <- <-. destruct (IH _ _ _ R) as (-> & N & F & S). auto.
    + destruct (discover_loop look seen t) as [s' r] eqn:R. destruct r as [l| |]; try discriminate.
      cbn [bind] in E. injection E as <- <-. destruct (IH _ _ _ R) as (-> & N & F & S). auto.
Qed.

Lemma discover_not_panic look names : forall seen, snd (discover_loop look seen names) <> Panic.
Proof.
  induction names as [|n t IH]; intros seen; cbn [discover_loop]; [discriminate|].
  destruct (look n) as [f|]; [destruct (fdisc f); [destruct (existsb _ _); [discriminate|]|]|].
  - specialize (IH (fid f :: seen)). destruct (discover_loop _ _ t) as [s [l| |]]; cbn in *; congruence.
  - specialize (IH seen). destruct (discover_loop _ _ t) as [s [l| |]]; cbn in *; congruence.
  - specialize (IH seen). destruct (discover_loop _ _ t) as [s [l| |]]; cbn in *; congruence.
Qed.

(* the discovered map has the factories of the services *)
Definition consistent (d : disc) : Prop := NoDup (used (services d)) /\ forall i, In i (discovered d) <-> In i (used (services d)).

Lemma Discover_spec look d names : consistent d ->
  (fresh look d names -> exists d', Discover look d names = (d', Ok (map avail (services d'))) /\
     services d' = services d ++ map (new_svc look) names /\ consistent d') /\
  (~ fresh look d names -> exists d', Discover look d names = (d', Err) /\ services d' = services d).
Proof.
  intros [C0 C]. split.
  - intros [N F]. destruct (discover_fresh look names (discovered d) N) as (s' & E & S).
    { intros i Hi Q. apply C in Q. now apply (F i). }
    unfold Discover. rewrite E. exists (Disc (services d ++ map (new_svc look) names) s'). split; [reflexivity|]. split; [reflexivity|]. unfold consistent. cbn [services discovered].
    rewrite used_app, used_new. split.
    + clear - C0 N F. induction (used (services d)) as [|x t IH]; cbn; [assumption|]. inversion C0; subst. constructor.
      * rewrite in_app_iff. intros [Q|Q]; [contradiction|]. apply (F x Q). now left.
      * apply IH; [assumption|]. intros i Hi Q. apply (F i Hi). now right.
    + intros i. rewrite in_app_iff, S, C. tauto.
  - intros NF. unfold Discover. destruct (discover_loop look (discovered d) names) as [s' [l| |]] eqn:E.
    + exfalso. apply NF. destruct (discover_ok_inv _ _ _ _ _ E) as (_ & N & F & _). split; [assumption|].
      intros i Hi Q. apply (F i Hi). now apply C.
    + eauto.
    + exfalso. apply (discover_not_panic look names (discovered d)). now rewrite E.
Qed.

(* ---- requests ---- *)

Lemma request_parts h c names rest : length h = 8%nat -> nth 6 h 0 mod 16 = 0 -> is_bytes h -> 0 <= c < 65536 ->
  Domain (request h c names rest) = Ok 0 /\ (len (request h c names rest) <? 10) = false /\
  get_le 8 2 (request h c names rest) = Ok c /\ skipn 10 (request h c names rest) = encoded names ++ rest.
Proof.
  intros H1 H2 HB H3. unfold request.
  destruct h as [|a0 [|a1 [|a2 [|a3 [|a4 [|a5 [|a6 [|a7 [|]]]]]]]]]; cbn [length] in H1; try lia. cbn [nth] in H2.
  cbn [le app]. split; [|split; [|split]].
  - unfold Domain, get_le, OffsetDomain. rewrite slice_ok by (cbn [length]; lia). cbn [bind firstn skipn unle].
    f_equal. rewrite Z.mul_0_r, Z.add_0_r. change 15 with (Z.ones 4). rewrite Z.land_ones by lia. exact H2.
  - unfold len. cbn [length]. lia.
  - unfold get_le. rewrite slice_ok by (cbn [length]; lia). cbn [bind firstn skipn unle]. f_equal. lia.
  - reflexivity.
Qed.

Lemma handle_request look d h c names rest k : header_ok h -> is_bytes h -> 0 <= c < 65536 ->
  len (services d) <= 256 ->
  k = Z.to_nat (Z.min c (256 - len (services d))) ->
  handleServicesPacket look d (request h c names rest) =
  match read_names k (encoded names ++ rest) with
  | Ok l => let '(d', r) := Discover look d l in (d', do states <- r; makeServicesPacket 0 states)
  | Err => (d, Err)
  | Panic => (d, Panic)
  end.
Proof.
  intros [H1 H2] HB Hc Hd ->. destruct (request_parts h c names rest H1 H2 HB Hc) as (P1 & P2 & P3 & P4).
  unfold handleServicesPacket. rewrite P1. cbn [bind]. change (negb (0 =? DomainCall)) with false. cbn match.
  change (Z.of_nat ServicesHeaderSize) with 10. rewrite P2.
  change OffsetServicesCount with 8%nat. rewrite P3. cbn [bind]. change ServicesHeaderSize with 10%nat. rewrite P4. unfold maxServices.
  pose proof (len_nonneg (services d)) as HN.
  replace (if len (services d) + c >? 256 then 256 - len (services d) else c) with (Z.min c (256 - len (services d)))
    by (destruct (len (services d) + c >? 256) eqn:Q; lia).
  replace (Z.min c (256 - len (services d)) <? 0) with false by lia. reflexivity.
Qed.
