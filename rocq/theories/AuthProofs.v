From Verif Require Import Auth AuthSpec BaseLemmas.
From Coq Require Import String Ascii.
Local Notation length := List.length.

(** Byte strings *)

Lemma beq_spec : forall a b, beq a b = true <-> a = b.
Proof.
  induction a as [|x a IH]; destruct b as [|y b]; cbn [beq]; split; intros H; try discriminate; auto.
  - apply andb_true_iff in H. destruct H as [H1 H2]. apply Z.eqb_eq in H1. apply IH in H2. congruence.
  - injection H as -> ->. rewrite Z.eqb_refl. cbn. apply IH. reflexivity.
Qed.
Lemma beq_refl : forall a, beq a a = true. Proof. intros; apply beq_spec; reflexivity. Qed.
Lemma beq_false : forall a b, a <> b -> beq a b = false.
Proof. intros a b H. destruct (beq a b) eqn:E; auto. apply beq_spec in E. contradiction. Qed.

(** Finite checks *)

Lemma upto : forall (n : nat) (P : Z -> bool), forallb P (map Z.of_nat (seq 0 n)) = true -> forall v, 0 <= v < Z.of_nat n -> P v = true.
Proof.
  intros n P H v Hv. rewrite forallb_forall in H. apply H. apply in_map_iff. exists (Z.to_nat v). split; [lia|]. apply in_seq. lia.
Qed.
Fixpoint lbeq (a b : list bool) : bool := match a, b with [], [] => true | x :: a, y :: b => Bool.eqb x y && lbeq a b | _, _ => false end.
Lemma lbeq_eq : forall a b, lbeq a b = true -> a = b.
Proof.
  induction a as [|x a IH]; destruct b as [|y b]; cbn; intros H; try discriminate; auto.
  apply andb_true_iff in H. destruct H as [H1 H2]. apply eqb_prop in H1. apply IH in H2. congruence.
Qed.

Lemma bits_length : forall n v, length (bits n v) = n.
Proof. induction n; cbn; intros; auto. Qed.

Lemma bits_ab : forall a b, 0 <= a < 64 -> 0 <= b < 64 -> bits 6 a ++ bits 6 b = bits 8 (a * 4 + b / 16) ++ bits 4 (b mod 16).
Proof.
  intros a b Ha Hb. apply lbeq_eq.
  assert (H : forallb (fun a => forallb (fun b => lbeq (bits 6 a ++ bits 6 b) (bits 8 (a * 4 + b / 16) ++ bits 4 (b mod 16))) (map Z.of_nat (seq 0 64))) (map Z.of_nat (seq 0 64)) = true) by (vm_compute; reflexivity).
  apply (upto 64 _ (upto 64 (fun a => forallb _ _) H a Ha) b Hb).
Qed.
Lemma bits_bc : forall a b, 0 <= a < 16 -> 0 <= b < 64 -> bits 4 a ++ bits 6 b = bits 8 (a * 16 + b / 4) ++ bits 2 (b mod 4).
Proof.
  intros a b Ha Hb. apply lbeq_eq.
  assert (H : forallb (fun a => forallb (fun b => lbeq (bits 4 a ++ bits 6 b) (bits 8 (a * 16 + b / 4) ++ bits 2 (b mod 4))) (map Z.of_nat (seq 0 64))) (map Z.of_nat (seq 0 16)) = true) by (vm_compute; reflexivity).
  apply (upto 64 _ (upto 16 (fun a => forallb _ _) H a Ha) b Hb).
Qed.
Lemma bits_cd : forall a b, 0 <= a < 4 -> 0 <= b < 64 -> bits 2 a ++ bits 6 b = bits 8 (a * 64 + b).
Proof.
  intros a b Ha Hb. apply lbeq_eq.
  assert (H : forallb (fun a => forallb (fun b => lbeq (bits 2 a ++ bits 6 b) (bits 8 (a * 64 + b))) (map Z.of_nat (seq 0 64))) (map Z.of_nat (seq 0 4)) = true) by (vm_compute; reflexivity).
  apply (upto 64 _ (upto 4 (fun a => forallb _ _) H a Ha) b Hb).
Qed.
Definition unbits (l : list bool) : Z := fold_left (fun acc (b : bool) => 2 * acc + if b then 1 else 0) l 0.
Lemma unbits_bits : forall v, is_byte v -> unbits (bits 8 v) = v.
Proof.
  intros v Hv. apply Z.eqb_eq. revert v Hv.
  assert (H : forallb (fun v => unbits (bits 8 v) =? v) (map Z.of_nat (seq 0 256)) = true) by (vm_compute; reflexivity).
  intros v Hv. apply (upto 256 _ H v). unfold is_byte in Hv. lia.
Qed.
Lemma bits_inj : forall x y, is_byte x -> is_byte y -> bits 8 x = bits 8 y -> x = y.
Proof. intros x y Hx Hy H. rewrite <- (unbits_bits x Hx), <- (unbits_bits y Hy). congruence. Qed.

Lemma app_eq_len : forall {A} (a b c d : list A), length a = length c -> a ++ b = c ++ d -> a = c /\ b = d.
Proof.
  induction a as [|x a IH]; destruct c as [|y c]; cbn; intros d HL H; try discriminate; auto.
  injection H as -> H. injection HL as HL. destruct (IH _ _ _ HL H). subst. auto.
Qed.

Lemma octets_unique : forall b b' pad pad', is_bytes b -> is_bytes b' -> (length pad < 8)%nat -> (length pad' < 8)%nat ->
  flat_map (bits 8) b ++ pad = flat_map (bits 8) b' ++ pad' -> b = b' /\ pad = pad'.
Proof.
  induction b as [|x b IH]; destruct b' as [|y b']; intros pad pad' Hb Hb' Hp Hp' H; cbn [flat_map] in H.
  - auto.
  - exfalso. apply (f_equal (@length bool)) in H. rewrite !app_length, bits_length in H. cbn in H. lia.
  - exfalso. apply (f_equal (@length bool)) in H. rewrite !app_length, bits_length in H. cbn in H. lia.
  - rewrite <- !app_assoc in H. apply app_eq_len in H; [|rewrite !bits_length; reflexivity].
    destruct H as [H1 H2]. inversion Hb; inversion Hb'; subst.
    apply bits_inj in H1; auto. destruct (IH b' pad pad') as [-> ->]; auto. subst. auto.
Qed.

(** The alphabet *)

Lemma val6_bound : forall c v, val6 c = Some v -> 0 <= v < 64 /\ char6 v = c.
Proof.
  intros c v H. unfold val6 in H.
  destruct ((65 <=? c) && (c <=? 90)) eqn:E1.
  { assert (v = c - 65) by congruence. clear H. unfold char6. replace (v <? 26) with true by lia. lia. }
  destruct ((97 <=? c) && (c <=? 122)) eqn:E2.
  { assert (v = c - 97 + 26) by congruence. clear H. unfold char6. replace (v <? 26) with false by lia. replace (v <? 52) with true by lia. lia. }
  destruct ((48 <=? c) && (c <=? 57)) eqn:E3.
  { assert (v = c - 48 + 52) by congruence. clear H. unfold char6. replace (v <? 26) with false by lia. replace (v <? 52) with false by lia. replace (v <? 62) with true by lia. lia. }
  destruct (c =? 45) eqn:E4; [injection H as <-; apply Z.eqb_eq in E4; subst; split; [lia|reflexivity]|].
  destruct (c =? 95) eqn:E5; [injection H as <-; apply Z.eqb_eq in E5; subst; split; [lia|reflexivity]|discriminate].
Qed.
Lemma char6_spec : forall v, 0 <= v < 64 -> val6 (char6 v) = Some v /\ nth_error alphabet (Z.to_nat v) = Some (char6 v).
Proof.
  intros v Hv.
  assert (H : forallb (fun v => (match val6 (char6 v) with Some w => w =? v | None => false end) &&
     (match nth_error alphabet (Z.to_nat v) with Some w => w =? char6 v | None => false end)) (map Z.of_nat (seq 0 64)) = true) by (vm_compute; reflexivity).
  pose proof (upto 64 _ H v Hv) as K. cbv beta in K. apply andb_true_iff in K. destruct K as [K1 K2].
  destruct (val6 (char6 v)); [|discriminate]. destruct (nth_error alphabet (Z.to_nat v)); [|discriminate].
  apply Z.eqb_eq in K1, K2. subst. auto.
Qed.
Lemma val6_spec : forall c v, val6 c = Some v <-> stands_for c v.
Proof.
  intros c v. split.
  - intros H. destruct (val6_bound _ _ H) as [Hv Hc]. split; auto. destruct (char6_spec v Hv) as [_ K]. congruence.
  - intros [Hv H]. destruct (char6_spec v Hv) as [K1 K2]. rewrite K2 in H. injection H as <-. auto.
Qed.

(** Base64 *)

Lemma quad_ind : forall (P : bytes -> Prop),
  P [] -> (forall a, P [a]) -> (forall a b, P [a; b]) -> (forall a b c, P [a; b; c]) ->
  (forall a b c d t, P t -> P (a :: b :: c :: d :: t)) -> forall l, P l.
Proof.
  intros P H0 H1 H2 H3 H4.
  refine (fix go (l : bytes) : P l := _).
  destruct l as [|a [|b [|c [|d t]]]]; [exact H0|apply H1|apply H2|apply H3|apply H4; apply go].
Qed.

Lemma byte_ranges : forall a b c d, 0 <= a < 64 -> 0 <= b < 64 -> 0 <= c < 64 -> 0 <= d < 64 ->
  is_byte (a * 4 + b / 16) /\ 0 <= b mod 16 < 16 /\ is_byte ((b mod 16) * 16 + c / 4) /\ 0 <= c mod 4 < 4 /\ is_byte ((c mod 4) * 64 + d).
Proof.
  intros. unfold is_byte.
  pose proof (Z.mod_pos_bound b 16 ltac:(lia)). pose proof (Z.mod_pos_bound c 4 ltac:(lia)).
  assert (0 <= b / 16 < 4) by (split; [apply Z.div_pos; lia|apply Z.div_lt_upper_bound; lia]).
  assert (0 <= c / 4 < 16) by (split; [apply Z.div_pos; lia|apply Z.div_lt_upper_bound; lia]).
  lia.
Qed.

Lemma quanta_sound : forall t b, b64quanta t = Some b -> base64url t b.
Proof.
  unfold base64url. induction t as [|a|a c|a c d|a c d f t IH] using quad_ind; intros bb H; cbn [b64quanta] in H.
  - injection H as <-. exists [], []. split; [constructor|]. split; [constructor|]. split; [cbn; lia|reflexivity].
  - discriminate.
  - destruct (val6 a) as [va|] eqn:Ea; [|discriminate]. destruct (val6 c) as [vc|] eqn:Ec; [|discriminate].
    injection H as <-. apply val6_spec in Ea, Ec.
    pose proof (proj1 Ea) as Ba. pose proof (proj1 Ec) as Bc.
    destruct (byte_ranges va vc 0 0 Ba Bc ltac:(lia) ltac:(lia)) as (R1 & R2 & _).
    exists [va; vc], (bits 4 (vc mod 16)). split; [repeat (constructor; [assumption|]); constructor|]. split; [repeat (constructor; [assumption|]); constructor|].
    split; [rewrite bits_length; lia|]. cbn [flat_map]. rewrite !app_nil_r. apply bits_ab; auto.
  - destruct (val6 a) as [va|] eqn:Ea; [|discriminate]. destruct (val6 c) as [vc|] eqn:Ec; [|discriminate]. destruct (val6 d) as [vd|] eqn:Ed; [|discriminate].
    injection H as <-. apply val6_spec in Ea, Ec, Ed.
    pose proof (proj1 Ea) as Ba. pose proof (proj1 Ec) as Bc. pose proof (proj1 Ed) as Bd.
    destruct (byte_ranges va vc vd 0 Ba Bc Bd ltac:(lia)) as (R1 & R2 & R3 & R4 & _).
    exists [va; vc; vd], (bits 2 (vd mod 4)). split; [repeat (constructor; [assumption|]); constructor|]. split; [repeat (constructor; [assumption|]); constructor|].
    split; [rewrite bits_length; lia|]. cbn [flat_map]. rewrite !app_nil_r.
    rewrite app_assoc, (bits_ab va vc), <- app_assoc, (bits_bc (vc mod 16) vd), <- app_assoc; auto.
  - destruct (val6 a) as [va|] eqn:Ea; [|discriminate]. destruct (val6 c) as [vc|] eqn:Ec; [|discriminate]. destruct (val6 d) as [vd|] eqn:Ed; [|discriminate].
    destruct (val6 f) as [vf|] eqn:Ef; [|discriminate]. destruct (b64quanta t) as [r|] eqn:Er; [|discriminate].
    injection H as <-. apply val6_spec in Ea, Ec, Ed, Ef. destruct (IH _ eq_refl) as (vs & pad & F & B & L & E).
    pose proof (proj1 Ea) as Ba. pose proof (proj1 Ec) as Bc. pose proof (proj1 Ed) as Bd. pose proof (proj1 Ef) as Bf.
    destruct (byte_ranges va vc vd vf Ba Bc Bd Bf) as (R1 & R2 & R3 & R4 & R5).
    exists (va :: vc :: vd :: vf :: vs), pad. split; [do 4 (constructor; [assumption|]); assumption|]. split; [do 3 (constructor; [assumption|]); assumption|].
    split; [assumption|]. cbn [flat_map]. rewrite E.
    rewrite (app_assoc (bits 6 va)), (bits_ab va vc), <- app_assoc by auto. rewrite (app_assoc (bits 4 _)), (bits_bc (vc mod 16) vd), <- app_assoc by auto.
    rewrite (app_assoc (bits 2 _)), (bits_cd (vd mod 4) vf) by auto. rewrite <- !app_assoc. reflexivity.
Qed.

Lemma flat_len : forall n l, length (flat_map (bits n) l) = (n * length l)%nat.
Proof. intros n. induction l as [|x l IH]; cbn [flat_map length]; [lia|]. rewrite app_length, bits_length, IH. lia. Qed.
Lemma Forall2_length : forall {A B} (R : A -> B -> Prop) l m, Forall2 R l m -> length l = length m.
Proof. induction 1; cbn; auto. Qed.
Lemma base64url_len : forall t b, base64url t b -> (8 * length b <= 6 * length t < 8 * length b + 6)%nat.
Proof.
  intros t b (vs & pad & F & B & L & E). apply Forall2_length in F. apply (f_equal (@length bool)) in E.
  rewrite app_length, !flat_len in E. lia.
Qed.
Lemma quanta_some : forall (t : bytes) vs, Forall2 stands_for t vs -> (forall k, length t <> 4 * k + 1)%nat -> exists b, b64quanta t = Some b.
Proof.
  intros t. induction t as [|a|a c|a c d|a c d f t IH] using quad_ind; intros vs F HL; cbn [b64quanta].
  - eauto.
  - exfalso. apply (HL 0%nat). reflexivity.
  - inversion F as [|? va ? ? Ha F1]; subst. inversion F1 as [|? vc ? ? Hc F2]; subst. apply val6_spec in Ha, Hc. rewrite Ha, Hc. eauto.
  - inversion F as [|? va ? ? Ha F1]; subst. inversion F1 as [|? vc ? ? Hc F2]; subst. inversion F2 as [|? vd ? ? Hd F3]; subst. apply val6_spec in Ha, Hc, Hd. rewrite Ha, Hc, Hd. eauto.
  - inversion F as [|? va ? ? Ha F1]; subst. inversion F1 as [|? vc ? ? Hc F2]; subst. inversion F2 as [|? vd ? ? Hd F3]; subst. inversion F3 as [|? vf ? ? Hf F4]; subst.
    apply val6_spec in Ha, Hc, Hd, Hf. rewrite Ha, Hc, Hd, Hf.
    destruct (IH _ F4) as [b Hb].
    + intros k Hk. apply (HL (S k)). cbn [length]. lia.
    + rewrite Hb. eauto.
Qed.
Lemma quanta_spec : forall t b, b64quanta t = Some b <-> base64url t b.
Proof.
  intros t b. split; [apply quanta_sound|]. intros H. pose proof (base64url_len _ _ H) as HL.
  destruct H as (vs & pad & F & B & L & E).
  destruct (quanta_some t vs F) as [b' Hb']; [intros k Hk; lia|].
  rewrite Hb'. f_equal. apply quanta_sound in Hb'. destruct Hb' as (vs' & pad' & F' & B' & L' & E').
  assert (vs' = vs).
  { clear -F F'. revert vs vs' F F'. induction t; intros; inversion F; inversion F'; subst; auto. f_equal; auto.
    apply val6_spec in H1, H6. congruence. }
  subst vs'. rewrite E in E'. destruct (octets_unique b' b pad' pad) as [-> _]; auto; lia.
Qed.

(* Encoding *)
Lemma three_ind : forall (P : bytes -> Prop),
  P [] -> (forall a, P [a]) -> (forall a b, P [a; b]) -> (forall a b c t, P t -> P (a :: b :: c :: t)) -> forall l, P l.
Proof.
  intros P H0 H1 H2 H3.
  refine (fix go (l : bytes) : P l := _).
  destruct l as [|a [|b [|c t]]]; [exact H0|apply H1|apply H2|apply H3; apply go].
Qed.
Lemma v6 : forall v, 0 <= v < 64 -> val6 (char6 v) = Some v. Proof. intros v H. apply (char6_spec v H). Qed.

Lemma enc_parts : forall a b c, is_byte a -> is_byte b -> is_byte c ->
  0 <= a / 4 < 64 /\ 0 <= (a mod 4) * 16 + b / 16 < 64 /\ 0 <= (b mod 16) * 4 + c / 64 < 64 /\ 0 <= c mod 64 < 64 /\
  a / 4 * 4 + ((a mod 4) * 16 + b / 16) / 16 = a /\
  ((a mod 4) * 16 + b / 16) mod 16 * 16 + ((b mod 16) * 4 + c / 64) / 4 = b /\
  ((b mod 16) * 4 + c / 64) mod 4 * 64 + c mod 64 = c.
Proof. unfold is_byte. intros a b c Ha Hb Hc. repeat split; Z.to_euclidean_division_equations; lia. Qed.
Lemma enc_part2 : forall a, is_byte a -> 0 <= (a mod 4) * 16 < 64 /\ a / 4 * 4 + (a mod 4) * 16 / 16 = a /\ 0 <= (a mod 16) * 4 < 64 /\
  forall x, 0 <= x < 4 -> (x * 16 + a / 16) mod 16 * 16 + (a mod 16) * 4 / 4 = a.
Proof. unfold is_byte. intros a Ha. repeat split; intros; Z.to_euclidean_division_equations; lia. Qed.

Lemma encode_quanta : forall b, is_bytes b -> b64quanta (b64encode b) = Some b.
Proof.
  induction b as [|a|a b|a b c t IH] using three_ind; intros H.
  - reflexivity.
  - inversion H as [|? ? Ha _]; subst. cbn [b64encode b64quanta].
    destruct (enc_parts a 0 0 Ha) as (P1 & _); [unfold is_byte; lia ..|]. destruct (enc_part2 a Ha) as (Q1 & Q2 & _).
    rewrite !v6 by auto. rewrite Q2. reflexivity.
  - inversion H as [|? ? Ha H1]; subst. inversion H1 as [|? ? Hb _]; subst. cbn [b64encode b64quanta].
    destruct (enc_parts a b 0 Ha Hb) as (P1 & P2 & _ & _ & P5 & _); [unfold is_byte; lia ..|]. destruct (enc_part2 b Hb) as (_ & _ & Q3 & Q4).
    rewrite !v6 by auto. rewrite P5, Q4 by (apply Z.mod_pos_bound; lia). reflexivity.
  - inversion H as [|? ? Ha H1]; subst. inversion H1 as [|? ? Hb H2]; subst. inversion H2 as [|? ? Hc H3]; subst.
    destruct (enc_parts a b c Ha Hb Hc) as (P1 & P2 & P3 & P4 & P5 & P6 & P7).
    cbn [b64encode b64quanta]. rewrite !v6 by auto. rewrite (IH H3), P5, P6, P7. reflexivity.
Qed.

Definition b64char (c : Z) : Prop := exists v, val6 c = Some v.
Lemma encode_chars : forall b, is_bytes b -> Forall b64char (b64encode b).
Proof.
  assert (K : forall v, 0 <= v < 64 -> b64char (char6 v)) by (intros v Hv; exists v; apply v6; auto).
  induction b as [|a|a b|a b c t IH] using three_ind; intros H; cbn [b64encode].
  - constructor.
  - inversion H as [|? ? Ha _]; subst.
    destruct (enc_parts a 0 0 Ha) as (P1 & _); [unfold is_byte; lia ..|]. destruct (enc_part2 a Ha) as (Q1 & _). repeat constructor; auto.
  - inversion H as [|? ? Ha H1]; subst. inversion H1 as [|? ? Hb _]; subst.
    destruct (enc_parts a b 0 Ha Hb) as (P1 & P2 & _ & _ & P5 & _); [unfold is_byte; lia ..|]. destruct (enc_part2 b Hb) as (_ & _ & Q3 & _). repeat constructor; auto.
  - inversion H as [|? ? Ha H1]; subst. inversion H1 as [|? ? Hb H2]; subst. inversion H2 as [|? ? Hc H3]; subst.
    destruct (enc_parts a b c Ha Hb Hc) as (P1 & P2 & P3 & P4 & _). do 4 (constructor; auto).
Qed.
Lemma b64char_not : forall c, b64char c -> c <> 10 /\ c <> 13 /\ c <> 32 /\ c <> 46.
Proof. intros c [v H]. repeat split; intros ->; cbn in H; discriminate. Qed.

(** Line breaks *)

Lemma breaks_filter : forall l u, without_breaks l u <-> u = filter (fun c => negb ((c =? 10) || (c =? 13))) l.
Proof.
  induction l as [|c l IH]; intros u; cbn [filter]; split; intros H.
  - inversion H; auto.
  - subst. constructor.
  - inversion H as [|? ? ? Hb Hw|? ? ? Hb Hw]; subst.
    + destruct Hb as [-> | ->]; cbn; apply IH; auto.
    + unfold line_break in Hb. replace ((c =? 10) || (c =? 13)) with false by lia. cbn. f_equal. apply IH; auto.
  - destruct ((c =? 10) || (c =? 13)) eqn:E; cbn in H.
    + constructor; [unfold line_break; lia|]. apply IH; auto.
    + subst u. constructor; [unfold line_break; lia|]. apply IH; auto.
Qed.
Lemma filter_b64 : forall l, Forall b64char l -> filter (fun c => negb ((c =? 10) || (c =? 13))) l = l.
Proof.
  induction 1 as [|c l H HF IH]; cbn [filter]; auto. destruct (b64char_not c H) as (A & B & _).
  replace ((c =? 10) || (c =? 13)) with false by lia. cbn. congruence.
Qed.
Lemma component_spec : forall p b, decodeJWTComponent p = Some b <-> holds p b.
Proof.
  intros p b. unfold decodeJWTComponent, holds, b64decode, decodedLen. split.
  - destruct (b64quanta _) as [r|] eqn:E; [|discriminate]. destruct (len r =? len p * 6 / 8) eqn:EL; [|discriminate].
    intros H; injection H as <-. exists (filter (fun c => negb ((c =? 10) || (c =? 13))) p).
    split; [apply breaks_filter; auto|]. split; [apply quanta_spec; auto|]. apply Z.eqb_eq in EL. rewrite EL. clear.
    Z.to_euclidean_division_equations; lia.
  - intros (t & W & B & HL). apply breaks_filter in W. subst t. apply quanta_spec in B. rewrite B.
    replace (len b =? len p * 6 / 8) with true; auto. symmetry. apply Z.eqb_eq. revert HL. clear. intros. Z.to_euclidean_division_equations; lia.
Qed.
Lemma component_encode : forall b, is_bytes b -> decodeJWTComponent (b64encode b) = Some b.
Proof.
  intros b H. unfold decodeJWTComponent, b64decode. rewrite filter_b64 by (apply encode_chars; auto).
  pose proof (encode_quanta b H) as E. rewrite E. apply quanta_sound, base64url_len in E.
  replace (len b =? decodedLen (len (b64encode b))) with true; auto. symmetry. apply Z.eqb_eq. unfold decodedLen, len.
  Z.to_euclidean_division_equations; lia.
Qed.

(** Trimming *)

Lemma trimLeft_spec : forall s, exists a, s = space a ++ trimLeft s.
Proof.
  induction s as [|x s IH]; [exists O; reflexivity|].
  destruct (Z.eq_dec x 32) as [->|H].
  - destruct IH as [a Ha]. exists (S a). cbn. f_equal. auto.
  - exists O. cbn. destruct x as [|[p|p|]|]; auto; repeat (destruct p as [p|p|]; auto); contradiction.
Qed.
Lemma trimLeft_id : forall x s, x <> 32 -> trimLeft (x :: s) = x :: s.
Proof. intros x s H. cbn. destruct x as [|[p|p|]|]; auto; repeat (destruct p as [p|p|]; auto); contradiction. Qed.
Lemma trimLeft_head : forall s, trimLeft s = [] \/ exists x t, trimLeft s = x :: t /\ x <> 32.
Proof.
  induction s as [|x s IH]; [left; reflexivity|].
  destruct (Z.eq_dec x 32) as [->|H]; [exact IH|]. right. rewrite trimLeft_id by auto. eauto.
Qed.
Lemma trimLeft_space : forall n s, trimLeft (space n ++ s) = trimLeft s.
Proof. induction n; cbn; auto. Qed.
Lemma trimLeft_nil_space : forall n, trimLeft (space n) = [].
Proof. induction n; cbn; auto. Qed.
Lemma space_rev : forall n, rev (space n) = space n.
Proof.
  induction n as [|n IH]; cbn; auto. unfold space in *. rewrite IH. symmetry. apply (repeat_cons n 32).
Qed.
Lemma space_add : forall n m, space n ++ space m = space (n + m).
Proof. intros. unfold space. symmetry. apply repeat_app. Qed.

Definition starts_ns (s : bytes) := exists x t, s = x :: t /\ x <> 32.
Definition ends_ns (s : bytes) := exists x t, s = t ++ [x] /\ x <> 32.
Lemma trim_core : forall a c s, starts_ns s -> ends_ns s -> trim (space a ++ s ++ space c) = s.
Proof.
  intros a c s (x & t & E1 & H1) (y & u & E2 & H2). unfold trim. rewrite trimLeft_space.
  replace (trimLeft (s ++ space c)) with (s ++ space c).
  2:{ rewrite E1. cbn [app]. rewrite trimLeft_id; auto. }
  rewrite rev_app_distr, space_rev, trimLeft_space, E2, rev_app_distr. cbn [rev app]. rewrite trimLeft_id by auto. cbn [rev]. rewrite rev_involutive. reflexivity.
Qed.
Lemma trim_inv : forall s, trim s = [] \/ (starts_ns (trim s) /\ ends_ns (trim s) /\ exists a c, s = space a ++ trim s ++ space c).
Proof.
  intros s. unfold trim. destruct (trimLeft_spec s) as [a Ha].
  destruct (trimLeft_head s) as [H|(x & t & H & Hx)].
  - left. rewrite H. reflexivity.
  - destruct (trimLeft_spec (rev (trimLeft s))) as [c Hc].
    destruct (trimLeft_head (rev (trimLeft s))) as [K|(y & u & K & Hy)].
    + exfalso. rewrite K, app_nil_r in Hc. apply (f_equal (@rev Z)) in Hc. rewrite rev_involutive, space_rev in Hc.
      rewrite H in Hc. destruct c; [discriminate|]. cbn in Hc. injection Hc as E1 E2. contradiction.
    + right. assert (E : trimLeft s = rev (trimLeft (rev (trimLeft s))) ++ space c).
      { rewrite <- (rev_involutive (trimLeft s)) at 1. rewrite Hc at 1. rewrite rev_app_distr, space_rev. reflexivity. }
      rewrite K in *. cbn [rev] in *. split; [|split].
      * rewrite E in H. destruct (rev u ++ [y]) as [|z w] eqn:Ez; [destruct (rev u); discriminate|]. cbn in H. injection H as -> _. exists x, w. auto.
      * exists y, (rev u). auto.
      * exists a, c. rewrite <- E. exact Ha.
Qed.

(** Searching and splitting *)

Lemma index_some : forall s c i, indexByte s c = Some i <-> exists t, s = firstn i s ++ c :: t /\ ~ In c (firstn i s) /\ (i < length s)%nat.
Proof.
  induction s as [|x s IH]; intros c i; cbn [indexByte].
  - split; [discriminate|]. intros (t & H & _ & HL). cbn in HL. lia.
  - destruct (x =? c) eqn:E.
    + apply Z.eqb_eq in E. subst. split.
      * intros H; injection H as <-. exists s. cbn. repeat split; auto; lia.
      * intros (t & H & HI & _). destruct i; auto. exfalso. apply HI. cbn. auto.
    + apply Z.eqb_neq in E. destruct (indexByte s c) as [j|] eqn:Ej; cbn [option_map].
      * split.
        -- intros H; injection H as <-. destruct (proj1 (IH c j) Ej) as (t & H & HI & HL). exists t. cbn. repeat split; [f_equal; auto|intros [?|?]; [auto|contradiction]|lia].
        -- intros (t & H & HI & HL). destruct i as [|i].
           { cbn in H. injection H as H1 H2. contradiction. }
           cbn in H, HI, HL. injection H as H. f_equal. assert (K : Some j = Some i); [|congruence]. rewrite <- Ej. apply IH. exists t. repeat split; auto; lia.
      * split; [discriminate|]. intros (t & H & HI & HL). destruct i as [|i].
        { cbn in H. injection H as H1 H2. contradiction. }
        cbn in H, HI, HL. injection H as H. assert (K : indexByte s c = Some i); [|congruence]. apply IH. exists t. repeat split; auto; lia.
Qed.
Lemma index_none : forall s c, indexByte s c = None <-> ~ In c s.
Proof.
  induction s as [|x s IH]; intros c; cbn [indexByte].
  - split; auto.
  - destruct (x =? c) eqn:E.
    + apply Z.eqb_eq in E. subst. split; [discriminate|]. intros H. exfalso. apply H. cbn. auto.
    + apply Z.eqb_neq in E. destruct (indexByte s c) as [j|] eqn:Ej; cbn [option_map].
      * split; [discriminate|]. intros H. assert (K : ~ In c s) by (intros K; apply H; cbn; auto). apply IH in K. congruence.
      * split; auto. intros _ [H|H]; [contradiction|]. apply (proj1 (IH c)); auto.
Qed.

Lemma in_split_first : forall (c : Z) (s : bytes), In c s -> exists a t, s = a ++ c :: t /\ ~ In c a.
Proof.
  intros c. induction s as [|x s IH]; intros H; [destruct H|].
  destruct (Z.eq_dec x c) as [->|E].
  - exists [], s. auto.
  - destruct H as [H|H]; [contradiction|]. destruct (IH H) as (a & t & -> & K). exists (x :: a), t. split; auto. intros [?|?]; auto.
Qed.
Lemma split_none : forall s sep k, ~ In sep s -> splitN s sep k = [s].
Proof.
  intros s sep [|k] H; [reflexivity|]. cbn [splitN].
  enough (G : forall acc, (fix go (s acc : bytes) : list bytes := match s with [] => [rev acc] | x :: t => if x =? sep then rev acc :: splitN t sep k else go t (x :: acc) end) s acc = [rev acc ++ s]) by apply (G []).
  induction s as [|x s IH]; intros acc; [rewrite app_nil_r; auto|].
  destruct (x =? sep) eqn:E.
  - exfalso. apply Z.eqb_eq in E. subst. apply H. cbn; auto.
  - rewrite IH by (intros K; apply H; cbn; auto). cbn [rev]. rewrite <- app_assoc. reflexivity.
Qed.
Lemma split_cons : forall a t sep k, ~ In sep a -> splitN (a ++ sep :: t) sep (S k) = a :: splitN t sep k.
Proof.
  intros a t sep k H. cbn [splitN].
  enough (G : forall acc, (fix go (s acc : bytes) : list bytes := match s with [] => [rev acc] | x :: t => if x =? sep then rev acc :: splitN t sep k else go t (x :: acc) end) (a ++ sep :: t) acc = (rev acc ++ a) :: splitN t sep k) by apply (G []).
  induction a as [|x a IH]; intros acc; cbn [app].
  - rewrite Z.eqb_refl, app_nil_r. reflexivity.
  - destruct (x =? sep) eqn:E.
    + exfalso. apply Z.eqb_eq in E. subst. apply H. cbn; auto.
    + rewrite IH by (intros K; apply H; cbn; auto). cbn [rev]. rewrite <- app_assoc. reflexivity.
Qed.
Lemma split_cases : forall s sep k, (~ In sep s /\ splitN s sep (S k) = [s]) \/ (exists a t, s = a ++ sep :: t /\ ~ In sep a /\ splitN s sep (S k) = a :: splitN t sep k).
Proof.
  intros s sep k. destruct (in_dec Z.eq_dec sep s) as [H|H].
  - right. destruct (in_split_first _ _ H) as (a & t & -> & K). exists a, t. split; auto. split; auto. apply split_cons; auto.
  - left. split; auto. apply split_none; auto.
Qed.
Lemma split3 : forall s p0 p1 p2, splitN s 46 2 = [p0; p1; p2] <-> s = p0 ++ [46] ++ p1 ++ [46] ++ p2 /\ ~ In 46 p0 /\ ~ In 46 p1.
Proof.
  intros s p0 p1 p2. split.
  - intros H. destruct (split_cases s 46 1) as [[H1 H2]|(a & t & H1 & H2 & H3)]; [rewrite H2 in H; discriminate|].
    rewrite H3 in H. assert (Ea : a = p0) by exact (f_equal (hd []) H). apply (f_equal (@tl bytes)) in H. change (splitN t 46 1 = [p1; p2]) in H. subst a. destruct (split_cases t 46 0) as [[K1 K2]|(b & u & K1 & K2 & K3)]; [rewrite K2 in H; discriminate|].
    rewrite K3 in H. cbn [splitN] in H. injection H as -> ->. subst. auto.
  - intros (-> & H0 & H1). cbn [app]. rewrite split_cons, split_cons by auto. reflexivity.
Qed.

(** The bearer header *)

Lemma same_letters : forall w u, Forall2 same_letter w u -> forall (HU : Forall (fun d => 65 <= d <= 90 \/ 97 <= d <= 122) u), map lower w = map lower u.
Proof.
  induction 1 as [|c d w u H HF IH]; intros HU; cbn; auto. inversion HU; subst. f_equal; auto.
  unfold lower. destruct H as [->|[[H ->]|[H ->]]]; auto.
  - replace ((65 <=? d + 32) && (d + 32 <=? 90)) with false by lia. replace ((65 <=? d) && (d <=? 90)) with true by lia. reflexivity.
  - replace ((65 <=? d - 32) && (d - 32 <=? 90)) with true by lia. replace ((65 <=? d) && (d <=? 90)) with false by lia. lia.
Qed.
Lemma letters_same : forall w u, Forall (fun d => 65 <= d <= 90 \/ 97 <= d <= 122) u -> map lower w = map lower u -> Forall2 same_letter w u.
Proof.
  induction w as [|c w IH]; destruct u as [|d u]; intros HU H; try discriminate; constructor.
  - inversion HU; subst. cbn in H. injection H as H _. unfold same_letter. unfold lower in H.
    destruct ((65 <=? c) && (c <=? 90)) eqn:E1, ((65 <=? d) && (d <=? 90)) eqn:E2; lia.
  - inversion HU; subst. cbn in H. injection H as _ H. auto.
Qed.
Lemma bearer_letters : Forall (fun d => 65 <= d <= 90 \/ 97 <= d <= 122) (bs "Bearer").
Proof. cbn. do 6 (constructor; [lia|]). constructor. Qed.

Lemma firstn_app_exact : forall {A} (a b : list A), firstn (length a) (a ++ b) = a.
Proof. intros. rewrite firstn_app, Nat.sub_diag, firstn_all. cbn. apply app_nil_r. Qed.
Lemma skipn_app_exact : forall {A} (a b : list A), skipn (length a) (a ++ b) = b.
Proof. intros. rewrite skipn_app, Nat.sub_diag, skipn_all. reflexivity. Qed.

Lemma bearer_spec : forall s tok, parseBearerToken s = Some tok <-> bearer s tok.
Proof.
  intros s tok. unfold parseBearerToken, bearer. split.
  - destruct (indexByte (trim s) 32) as [i|] eqn:Ei; [|discriminate].
    destruct (Nat.eqb i 6) eqn:E6; cbn [andb]; [|discriminate]. apply Nat.eqb_eq in E6. subst i.
    destruct (equalFold (firstn 6 (trim s)) (bs "Bearer")) eqn:EF; [|discriminate]. intros H. assert (H' : trimLeft (skipn (6 + 1) (trim s)) = tok) by congruence. clear H. change (6 + 1)%nat with 7%nat in H'.
    apply index_some in Ei. destruct Ei as (t & Et & Hn & HL). unfold equalFold in EF. apply beq_spec in EF.
    apply letters_same in EF; [|apply bearer_letters].
    destruct (trim_inv s) as [E0|(S1 & S2 & a & c & Es)]; [rewrite E0 in HL; cbn in HL; lia|].
    assert (Lw : length (firstn 6 (trim s)) = 6%nat) by (apply Forall2_length in EF; exact EF).
    assert (Esk : skipn 7 (trim s) = t).
    { rewrite Et. replace 7%nat with (length (firstn 6 (trim s)) + 1)%nat by lia. rewrite skipn_app.
      rewrite (skipn_all2 (firstn 6 (trim s))) by lia. cbn [app]. replace (_ + 1 - _)%nat with 1%nat by lia. reflexivity. }
    rewrite Esk in H'.
    destruct (trimLeft_spec t) as [b Hb]. rewrite H' in Hb.
    exists a, (firstn 6 (trim s)), b, c. split; [|split; [|split]].
    + rewrite Es at 1. f_equal. rewrite Et at 1. rewrite Hb. rewrite <- !app_assoc. f_equal. cbn [app]. rewrite <- app_assoc. reflexivity.
    + exact EF.
    + destruct (trimLeft_head t) as [Z0|(x & u & Hx & Hne)].
      * exfalso. rewrite Z0 in H'. subst tok. rewrite app_nil_r in Hb. destruct S2 as (y & u & Ey & Hy). rewrite Et, Hb in Ey.
        change (32 :: space b) with (space (S b)) in Ey.
        assert (K : space (S b) = space b ++ [32]) by apply (repeat_cons b 32).
        rewrite K, app_assoc in Ey. apply app_inj_tail in Ey. destruct Ey. congruence.
      * exists x, u. split; congruence.
    + destruct S2 as (y & u & Ey & Hy). rewrite Et, Hb in Ey.
      destruct tok as [|z tk].
      { exfalso. rewrite app_nil_r in Ey. change (32 :: space b) with (space (S b)) in Ey.
        assert (K : space (S b) = space b ++ [32]) by apply (repeat_cons b 32).
        rewrite K, app_assoc in Ey. apply app_inj_tail in Ey. destruct Ey. congruence. }
      destruct (exists_last (l := z :: tk)) as (v & w & Ev); [discriminate|]. rewrite Ev in Ey |- *. exists w, v. split; auto.
      change (32 :: space b ++ v ++ [w]) with ((32 :: space b) ++ v ++ [w]) in Ey. rewrite !app_assoc in Ey. apply app_inj_tail in Ey. destruct Ey. congruence.
  - intros (a & w & b & c & Es & Hw & (x & t & Ex & Hx) & (y & u & Ey & Hy)).
    assert (Lw : length w = 6%nat) by (apply Forall2_length in Hw; exact Hw).
    assert (Nw : ~ In 32 w).
    { intros K. destruct (In_nth _ _ 0 K) as (n & Hn & Hnth). clear -Hw Hn Hnth.
      assert (G : Forall (fun c => c <> 32) w).
      { assert (BL : Forall (fun d => 65 <= d <= 90 \/ 97 <= d <= 122) (bs "Bearer")) by apply bearer_letters.
        revert BL. generalize dependent (bs "Bearer"). clear. induction w; intros u HF BL; constructor; inversion HF; subst; inversion BL; subst.
        - unfold same_letter in H1. lia.
        - eapply IHw; eauto. }
      rewrite Forall_forall in G. apply (G (nth n w 0)); auto. apply nth_In; auto. }
    assert (ET : trim s = w ++ space (S b) ++ tok).
    { rewrite Es. replace (w ++ space (S b) ++ tok ++ space c) with ((w ++ space (S b) ++ tok) ++ space c) by (rewrite <- !app_assoc; reflexivity).
      apply trim_core.
      - destruct w as [|z w']; [discriminate|]. exists z, (w' ++ space (S b) ++ tok). split; auto. intros ->. apply Nw. cbn; auto.
      - exists y, (w ++ space (S b) ++ u). rewrite Ey. rewrite <- !app_assoc. auto. }
    rewrite ET.
    assert (EI : indexByte (w ++ space (S b) ++ tok) 32 = Some 6%nat).
    { apply index_some. exists (space b ++ tok). replace (firstn 6 (w ++ space (S b) ++ tok)) with w.
      - split; [reflexivity|]. split; auto. rewrite !app_length. cbn. lia.
      - symmetry. rewrite <- Lw. apply firstn_app_exact. }
    rewrite EI. cbn [Nat.eqb andb].
    replace (firstn 6 (w ++ space (S b) ++ tok)) with w by (symmetry; rewrite <- Lw; apply firstn_app_exact).
    assert (EQ : equalFold w (bs "Bearer") = true) by (unfold equalFold; apply beq_spec, same_letters; auto; apply bearer_letters).
    rewrite EQ. f_equal.
    replace (skipn (6 + 1) (w ++ space (S b) ++ tok)) with (space b ++ tok).
    + rewrite trimLeft_space, Ex. apply trimLeft_id; auto.
    + change (6 + 1)%nat with (6 + 1)%nat. rewrite skipn_app, Lw. rewrite skipn_all2 by lia. reflexivity.
Qed.

(** Scope *)

Lemma split_len : forall k s sep, (1 <= length (splitN s sep k) <= S k)%nat.
Proof.
  induction k; intros s sep; [cbn; lia|]. destruct (split_cases s sep k) as [[_ ->]|(a & t & _ & _ & ->)]; cbn; [lia|]. specialize (IHk t sep). lia.
Qed.
Lemma join_cons : forall w ws, ws <> [] -> join (w :: ws) = w ++ [32] ++ join ws.
Proof. intros w [|x ws] H; [contradiction|reflexivity]. Qed.
Lemma split_join : forall k s, (length (splitN s 32 k) = S k -> ~ In 32 (nth k (splitN s 32 k) [])) ->
  s = join (splitN s 32 k) /\ Forall (fun w => ~ In 32 w) (splitN s 32 k).
Proof.
  induction k; intros s H.
  - cbn in *. auto.
  - destruct (split_cases s 32 k) as [[Hn E]|(a & t & Es & Hn & E)]; rewrite E in *.
    + split; auto.
    + destruct (IHk t) as [I1 I2].
      { intros HL. cbn [length nth] in H. apply H. lia. }
      split; [|constructor; auto]. rewrite join_cons, <- I1; auto. pose proof (split_len k t 32). destruct (splitN t 32 k); cbn in *; [lia|discriminate].
Qed.
Lemma join_split : forall ws k, Forall (fun w => ~ In 32 w) ws -> (1 <= length ws <= S k)%nat -> splitN (join ws) 32 k = ws.
Proof.
  induction ws as [|w ws IH]; intros k HF HL; [cbn in HL; lia|]. inversion HF; subst.
  destruct ws as [|x ws].
  - cbn. apply split_none; auto.
  - destruct k as [|k]; [cbn in HL; lia|]. rewrite join_cons by discriminate. cbn [app]. rewrite split_cons by auto. f_equal. apply IH; auto. cbn [length] in *. lia.
Qed.
Lemma scope_spec : forall s ws, validateScope s = Some ws <-> s = join ws /\ (1 <= length ws <= 10)%nat /\ Forall (fun w => ~ In 32 w) ws.
Proof.
  intros s ws. unfold validateScope. split.
  - destruct (Nat.eqb (length (splitN s 32 9)) 10 && _) eqn:E; [discriminate|]. intros H; injection H as <-.
    pose proof (split_len 9 s 32). destruct (split_join 9 s) as [I1 I2]; [|split; [|split]; auto].
    intros HL. rewrite HL in E. cbn [Nat.eqb andb] in E. destruct (indexByte _ 32) eqn:Ei; [discriminate|]. apply index_none in Ei. exact Ei.
  - intros (-> & HL & HF). rewrite (join_split ws 9) by auto.
    replace (match indexByte (nth 9 ws []) 32 with Some _ => true | None => false end) with false; [rewrite andb_false_r; auto|].
    destruct (indexByte (nth 9 ws []) 32) eqn:Ei; auto. exfalso.
    assert (K : ~ In 32 (nth 9 ws [])).
    { destruct (nth_in_or_default 9 ws []) as [K|K]; [rewrite Forall_forall in HF; auto|rewrite K; auto]. }
    apply index_none in K. congruence.
Qed.

(** Keys *)

Lemma filter_len : forall {A} (f : A -> bool) l, (length (filter f l) <= length l)%nat /\ (length (filter f l) = length l -> filter f l = l).
Proof.
  induction l as [|x l [I1 I2]]; cbn; [auto|]. destruct (f x); cbn; split; try lia; intros; f_equal; try apply I2; lia.
Qed.
Lemma key_spec : forall x k, parseEd25519Key x = Some k <-> (length x = 43%nat /\ base64url x k /\ length k = 32%nat).
Proof.
  intros x k. unfold parseEd25519Key, b64decode, len. split.
  - destruct (Z.of_nat (length x) =? 43) eqn:E1; cbn [negb]; [|discriminate]. apply Z.eqb_eq in E1.
    destruct (b64quanta _) as [r|] eqn:E2; [|discriminate]. destruct (Z.of_nat (length r) =? 32) eqn:E3; [|discriminate]. apply Z.eqb_eq in E3.
    intros H; injection H as <-. apply quanta_spec in E2. pose proof (base64url_len _ _ E2) as HL.
    destruct (filter_len (fun c => negb ((c =? 10) || (c =? 13))) x) as [F1 F2].
    rewrite F2 in E2 by lia. repeat split; auto; lia.
  - intros (H1 & H2 & H3). rewrite H1. cbn [Z.of_nat Z.eqb negb].
    replace (filter (fun c => negb ((c =? 10) || (c =? 13))) x) with x.
    + apply quanta_spec in H2. rewrite H2, H3. reflexivity.
    + symmetry. apply filter_b64. destruct H2 as (vs & pad & F & _). clear -F. induction F; constructor; auto. exists y. apply val6_spec; auto.
Qed.

(** Nonces *)

Lemma check_spec : forall now k n x db r, CheckNonce now k n x db = r ->
  (fst r = true <-> fresh db now k n) /\
  snd r = (if fst r then [(k, n, x)] else []) ++ filter (fun r => negb (snd r <? now)) db.
Proof.
  intros now k n x db r <-. unfold CheckNonce.
  destruct (existsb _ _) eqn:E; cbn [fst snd]; split; auto.
  - split; [discriminate|]. intros F. apply existsb_exists in E. destruct E as ([[k' n'] x'] & Hin & HE). cbn [fst snd] in HE.
    apply andb_true_iff in HE. destruct HE as [E1 E2]. apply beq_spec in E1, E2. subst. apply filter_In in Hin. destruct Hin as [Hin Hx]. cbn in Hx.
    specialize (F _ Hin). lia.
  - split; auto. intros _ x' Hin. destruct (x' <? now) eqn:Ex; [lia|]. exfalso.
    assert (K : existsb (fun r => beq (fst (fst r)) k && beq (snd (fst r)) n) (filter (fun r => negb (snd r <? now)) db) = true).
    { apply existsb_exists. exists (k, n, x'). split.
      - apply filter_In. split; auto. cbn. rewrite Ex. reflexivity.
      - cbn. rewrite !beq_refl. reflexivity. }
    congruence.
Qed.

(** Times and audience *)

Lemma exp_spec : forall e t x, clock t -> -2 ^ 63 <= x < 2 ^ 63 ->
  (verifyExpiration e t x = true <-> (t <= x <= t + 900 \/ (local e = true /\ x = 0))).
Proof.
  intros e t x Ht Hx. unfold verifyExpiration, clock in *.
  destruct ((x =? 0) && local e) eqn:E.
  - apply andb_true_iff in E. destruct E as [E1 E2]. apply Z.eqb_eq in E1. split; auto.
  - assert (NL : ~ (local e = true /\ x = 0)) by (intros [N1 N2]; rewrite N1, N2 in E; discriminate).
    assert (S : -2 ^ 63 <= x - t -> s64 (x - t) = x - t).
    { intros L. unfold s64. rewrite Z.mod_small by lia. lia. }
    assert (S' : x - t < -2 ^ 63 -> s64 (x - t) = x - t + 2 ^ 64).
    { intros L. unfold s64. replace (x - t + 2 ^ 63) with (x - t + 2 ^ 63 + 2 ^ 64 + (-1) * 2 ^ 64) by lia. rewrite Z_mod_plus_full, Z.mod_small by lia. lia. }
    destruct (Z_le_gt_dec (-2 ^ 63) (x - t)) as [L|L].
    + rewrite (S L). clear S S'. split; intros H; [left; lia|]. destruct H as [H|H]; [lia|contradiction].
    + rewrite (S' ltac:(lia)). clear S S'. split; intros H; [exfalso; lia|]. destruct H as [H|H]; [lia|contradiction].
Qed.
Lemma aud_spec : forall e a, verifyAudience e a = true <-> (a = [] \/ In (identity e) a).
Proof.
  intros e a. unfold verifyAudience. destruct a as [|x a]; [split; auto|]. rewrite existsb_exists. split.
  - intros (y & H1 & H2). apply beq_spec in H2. subst. auto.
  - intros [H|H]; [discriminate|]. exists (identity e). split; auto. apply beq_refl.
Qed.

(** The whole *)

Lemma no_alg : bs "EdDSA" <> bs "none". Proof. discriminate. Qed.

Lemma firstn_signed : forall (p0 p1 p2 : bytes), firstn (length p0 + 1 + length p1) (p0 ++ [46] ++ p1 ++ [46] ++ p2) = p0 ++ [46] ++ p1.
Proof.
  intros. replace (p0 ++ [46] ++ p1 ++ [46] ++ p2) with ((p0 ++ [46] ++ p1) ++ [46] ++ p2) by (rewrite <- !app_assoc; reflexivity).
  replace (length p0 + 1 + length p1)%nat with (length (p0 ++ [46] ++ p1)) by (rewrite !app_length; cbn; lia). apply firstn_app_exact.
Qed.

Lemma jwt_accept : forall e t1 t2 tok db i sc db', claims_int64 e -> clock t1 ->
  (parseJWT e t1 t2 tok db = (Accept i sc, db') ->
   exists h p sg bh bp sig hd c, tok = h ++ [46] ++ p ++ [46] ++ sg /\ ~ In 46 h /\ ~ In 46 p /\
    holds h bh /\ holds p bp /\ holds sg sig /\
    parse_header e bh = Some hd /\ parse_claims e bp = Some c /\
    (t1 <= Exp c <= t1 + 900 \/ (local e = true /\ Exp c = 0)) /\
    (Aud c = [] \/ In (identity e) (Aud c)) /\
    ((Alg hd = bs "EdDSA" /\ names_key hd i /\ verify e (key i) (h ++ [46] ++ p) sig = true /\
      ((Nonce c = [] /\ db' = db) \/ (nonces e = true /\ Nonce c <> [] /\ fresh db t2 (key i) (Nonce c) /\
         db' = (key i, Nonce c, Exp c) :: filter (fun r => negb (snd r <? t2)) db))) \/
     (Alg hd = bs "none" /\ local e = true /\ sig = [] /\ Nonce c = [] /\ i = LocalID /\ db' = db)) /\
    Scope c = join sc /\ (1 <= length sc <= 10)%nat /\ Forall (fun w => ~ In 32 w) sc).
Proof.
  intros e t1 t2 tok db i sc db' HC HT H. unfold parseJWT in H.
  destruct (splitN tok 46 2) as [|p0 [|p1 [|p2 [|]]]] eqn:ES; try discriminate.
  apply split3 in ES. destruct ES as (Et & N0 & N1). rewrite Et in H. rewrite firstn_signed in H.
  destruct (decodeJWTComponent p0) as [bh|] eqn:D0; [|discriminate].
  destruct (decodeJWTComponent p1) as [bp|] eqn:D1; [|discriminate].
  destruct (decodeJWTComponent p2) as [sig|] eqn:D2; [|discriminate].
  destruct (parse_header e bh) as [hd|] eqn:PH; [|discriminate].
  destruct (parseJWTHeader e hd) as [pri| |] eqn:PJ; [|discriminate|discriminate].
  destruct (parse_claims e bp) as [c|] eqn:PC; [|discriminate].
  destruct (verifyExpiration e t1 (Exp c)) eqn:VE; cbn [negb] in H; [|discriminate].
  destruct (verifyAudience e (Aud c)) eqn:VA; cbn [negb] in H; [|discriminate].
  destruct (verifySignature e pri (Alg hd) (p0 ++ [46] ++ p1) sig) as [[|]| |] eqn:VS; [|discriminate ..].
  exists p0, p1, p2, bh, bp, sig, hd, c.
  apply component_spec in D0, D1, D2. apply exp_spec in VE; [|assumption|eapply HC; eassumption]. apply aud_spec in VA.
  do 10 (split; [assumption|]).
  destruct (verifyNonce e t2 pri (Nonce c) (Exp c) db) as [vn db1] eqn:VN. cbn [fst snd] in H.
  destruct vn as [[|]| |]; try (exfalso; congruence).
  destruct pri as [p|].
  - (* a key *)
    destruct (validateScope (Scope c)) as [ws|] eqn:VSc; [|exfalso; congruence].
    assert (p = i /\ ws = sc /\ db1 = db') by (repeat split; congruence). destruct H0 as (-> & -> & ->). clear H.
    apply scope_spec in VSc. split; [|exact VSc]. left.
    unfold parseJWTHeader in PJ. destruct (beq (Alg hd) (bs "EdDSA")) eqn:EA.
    + apply beq_spec in EA. split; auto. destruct (Jwk hd) as [k|] eqn:EJ; [|discriminate].
      destruct (beq (Kty k) (bs "OKP") && beq (Crv k) (bs "Ed25519")) eqn:EK; [|discriminate]. apply andb_true_iff in EK. destruct EK as [EK1 EK2]. apply beq_spec in EK1, EK2.
      unfold ParseEd25519Key in PJ. destruct (parseEd25519Key (X k)) as [kk|] eqn:EP; [|discriminate]. injection PJ as <-. apply key_spec in EP. destruct EP as (L1 & B & L2).
      split; [exists k; cbn [key str]; repeat split; auto|].
      unfold verifySignature in VS. rewrite EA, beq_refl in VS. injection VS as VS. split; auto.
      unfold verifyNonce in VN. destruct (Nonce c) as [|n0 nn] eqn:EN; [left; split; auto; congruence|].
      destruct (nonces e); [|discriminate]. right. split; auto. split; [discriminate|].
      cbn [key] in *. destruct (CheckNonce t2 kk (n0 :: nn) (Exp c) db) as [f d] eqn:CN.
      apply check_spec in CN. cbn [fst snd] in *. destruct CN as [C1 C2]. assert (f = true) by congruence. subst f. split; [apply C1; auto|]. assert (d = db') by congruence. cbn [app] in C2. congruence.
    + destruct (beq (Alg hd) (bs "none")); [|discriminate]. destruct (local e); discriminate.
  - (* local *)
    destruct (local e) eqn:EL; [|exfalso; congruence].
    destruct (validateScope (Scope c)) as [ws|] eqn:VSc; [|exfalso; congruence].
    assert (LocalID = i /\ ws = sc /\ db1 = db') by (repeat split; congruence). destruct H0 as (<- & -> & ->). clear H.
    apply scope_spec in VSc. split; [|exact VSc]. right.
    unfold parseJWTHeader in PJ. destruct (beq (Alg hd) (bs "EdDSA")) eqn:EA.
    + exfalso. destruct (Jwk hd) as [k|]; [|discriminate]. destruct (_ && _); [|discriminate]. destruct (ParseEd25519Key (X k)); discriminate.
    + destruct (beq (Alg hd) (bs "none")) eqn:EN; [|discriminate]. apply beq_spec in EN. split; auto. split; auto.
      unfold verifySignature in VS. rewrite EA, EN, beq_refl in VS. destruct (len sig =? 0) eqn:E0; [|discriminate].
      split; [destruct sig; auto; unfold len in E0; cbn in E0; lia|].
      unfold verifyNonce in VN. destruct (Nonce c) as [|n0 nn]; [repeat split; congruence|]. destruct (nonces e); discriminate.
Qed.

Lemma jwt_complete : forall e t1 t2 db h p sg bh bp sig hd c i sc, claims_int64 e -> clock t1 ->
  ~ In 46 h -> ~ In 46 p -> holds h bh -> holds p bp -> holds sg sig ->
  parse_header e bh = Some hd -> parse_claims e bp = Some c ->
  (t1 <= Exp c <= t1 + 900 \/ (local e = true /\ Exp c = 0)) -> (Aud c = [] \/ In (identity e) (Aud c)) ->
  ((Alg hd = bs "EdDSA" /\ names_key hd i /\ verify e (key i) (h ++ [46] ++ p) sig = true /\
      (Nonce c = [] \/ (nonces e = true /\ fresh db t2 (key i) (Nonce c)))) \/
   (Alg hd = bs "none" /\ local e = true /\ sig = [] /\ Nonce c = [] /\ i = LocalID)) ->
  Scope c = join sc -> (1 <= length sc <= 10)%nat -> Forall (fun w => ~ In 32 w) sc ->
  fst (parseJWT e t1 t2 (h ++ [46] ++ p ++ [46] ++ sg) db) = Accept i sc.
Proof.
  intros e t1 t2 db h p sg bh bp sig hd c i sc HC HT N0 N1 H0 H1 H2 PH PC VE VA HA S1 S2 S3. unfold parseJWT.
  rewrite (proj2 (split3 _ h p sg)) by auto. rewrite firstn_signed.
  apply component_spec in H0, H1, H2. rewrite H0, H1, H2, PH, PC.
  assert (VSc : validateScope (Scope c) = Some sc) by (apply scope_spec; auto).
  apply (exp_spec e t1 (Exp c) HT (HC _ _ PC)) in VE. apply aud_spec in VA.
  destruct HA as [(EA & (k & EJ & K1 & K2 & K3 & K4 & K5 & K6) & VS & NN)|(EA & EL & -> & EN & ->)].
  - assert (PJ : parseJWTHeader e hd = Ok (Some i)).
    { unfold parseJWTHeader. rewrite EA, beq_refl, EJ, K1, K2, !beq_refl. cbn [andb]. unfold ParseEd25519Key.
      rewrite (proj2 (key_spec (X k) (key i))) by auto. destruct i as [ik is']; cbn [key str] in *. rewrite K6. reflexivity. }
    rewrite PJ, VE, VA. cbn [negb]. unfold verifySignature. rewrite EA, beq_refl, VS. cbn [fst].
    assert (VN : fst (verifyNonce e t2 (Some i) (Nonce c) (Exp c) db) = Ok true).
    { unfold verifyNonce. destruct NN as [->|[NE F]]; [reflexivity|]. destruct (Nonce c) as [|n0 nn]; auto. rewrite NE.
      destruct (CheckNonce t2 (key i) (n0 :: nn) (Exp c) db) as [f d] eqn:CN. apply check_spec in CN. cbn [fst snd] in *. f_equal. apply CN; auto. }
    rewrite VN, VSc. reflexivity.
  - assert (PJ : parseJWTHeader e hd = Ok None).
    { unfold parseJWTHeader. rewrite EA. rewrite (beq_false (bs "none") (bs "EdDSA")) by discriminate. rewrite beq_refl, EL. reflexivity. }
    rewrite PJ, VE, VA. cbn [negb]. unfold verifySignature. rewrite EA, (beq_false (bs "none") (bs "EdDSA")) by discriminate. rewrite beq_refl, EL.
    cbn [len length Z.of_nat Z.eqb fst]. rewrite EN. unfold verifyNonce. cbn [fst]. rewrite VSc. reflexivity.
Qed.

Lemma auth_value : forall e t1 t2 v db i sc, claims_int64 e -> clock t1 ->
  (fst (parseAuthorization e t1 t2 v true db) = Accept i sc <-> proves e t1 t2 db v i sc).
Proof.
  intros e t1 t2 v db i sc HC HT. unfold parseAuthorization. rewrite andb_false_r. split.
  - destruct (parseBearerToken v) as [tok|] eqn:EB; [|discriminate]. intros H. apply bearer_spec in EB.
    destruct (parseJWT e t1 t2 tok db) as [o d] eqn:EJ. cbn [fst] in H. subst o.
    apply jwt_accept in EJ; auto. destruct EJ as (h & p & sg & bh & bp & sig & hd & c & Et & A1 & A2 & A3 & A4 & A5 & A6 & A7 & A8 & A9 & A10 & A11).
    exists h, p, sg, bh, bp, sig, hd, c. split; [congruence|]. do 9 (split; [assumption|]). split; [|assumption].
    destruct A10 as [(B1 & B2 & B3 & B4)|(B1 & B2 & B3 & B4 & B5 & B6)]; [left|right; auto 10].
    split; auto. split; auto. split; auto. destruct B4 as [(C1 & _)|(C1 & C2 & C3 & _)]; auto.
  - intros (h & p & sg & bh & bp & sig & hd & c & A0 & A1 & A2 & A3 & A4 & A5 & A6 & A7 & A8 & A9 & A10 & A11 & A12 & A13).
    apply bearer_spec in A0. rewrite A0. eapply jwt_complete; eauto.
Qed.

(** Tables *)

(* What a request does to the table. *)
Lemma value_db : forall e t1 t2 v db o db', parseAuthorization e t1 t2 v true db = (o, db') ->
  db' = db \/ db' = filter (fun r => negb (snd r <? t2)) db \/ exists k n x, db' = (k, n, x) :: filter (fun r => negb (snd r <? t2)) db.
Proof.
  intros e t1 t2 v db o db' H. unfold parseAuthorization in H. rewrite andb_false_r in H.
  destruct (parseBearerToken v) as [tok|]; [|left; congruence]. unfold parseJWT in H.
  destruct (splitN tok 46 2) as [|p0 [|p1 [|p2 [|]]]]; try (left; congruence).
  destruct (decodeJWTComponent p0); [|left; congruence]. destruct (decodeJWTComponent p1); [|left; congruence]. destruct (decodeJWTComponent p2); [|left; congruence].
  destruct (parse_header e b); [|left; congruence]. destruct (parseJWTHeader e h) as [pri| |]; [|left; congruence ..].
  destruct (parse_claims e b0) as [c|]; [|left; congruence].
  destruct (negb (verifyExpiration e t1 (Exp c))); [left; congruence|]. destruct (negb (verifyAudience e (Aud c))); [left; congruence|].
  destruct (verifySignature _ _ _ _ _) as [[|]| |]; [|left; congruence ..].
  assert (E : snd (verifyNonce e t2 pri (Nonce c) (Exp c) db) = db') by (injection H; auto). clear H.
  unfold verifyNonce in E. destruct (Nonce c) as [|n0 nn]; [left; auto|]. destruct (nonces e); [|left; auto]. destruct pri as [p|]; [|left; auto].
  cbn [snd] in E. destruct (CheckNonce t2 (key p) (n0 :: nn) (Exp c) db) as [f d] eqn:CN. apply check_spec in CN. cbn [fst snd] in *. destruct CN as [_ CN]. subst d.
  destruct f; cbn [app] in E; right; [right|left]; eauto.
Qed.

(* An accepted token with a nonce leaves its row. *)
Lemma carries_decode : forall e v i c, carries e v i c ->
  exists h p sg bh bp hd, parseBearerToken v = Some (h ++ [46] ++ p ++ [46] ++ sg) /\ ~ In 46 h /\ ~ In 46 p /\
    decodeJWTComponent h = Some bh /\ decodeJWTComponent p = Some bp /\ parse_header e bh = Some hd /\ parse_claims e bp = Some c /\
    Alg hd = bs "EdDSA" /\ names_key hd i.
Proof.
  intros e v i c (h & p & sg & bh & bp & hd & H0 & H1 & H2 & H3 & H4 & H5 & H6 & H7 & H8).
  exists h, p, sg, bh, bp, hd. apply bearer_spec in H0. apply component_spec in H3, H4. auto 10.
Qed.
Lemma names_unique : forall hd i j, names_key hd i -> names_key hd j -> i = j.
Proof.
  intros hd [ki si] [kj sj] (k & A1 & A2 & A3 & A4 & A5 & A6 & A7) (k' & B1 & B2 & B3 & B4 & B5 & B6 & B7). cbn [key str] in *.
  assert (k' = k) by congruence. subst k'. apply quanta_spec in A5, B5. congruence.
Qed.
Lemma dot_split_unique : forall a b c a' b' c', ~ In 46 a -> ~ In 46 b -> ~ In 46 a' -> ~ In 46 b' ->
  a ++ [46] ++ b ++ [46] ++ c = a' ++ [46] ++ b' ++ [46] ++ c' -> a = a' /\ b = b' /\ c = c'.
Proof.
  intros a b c a' b' c' H1 H2 H3 H4 H.
  assert (E1 : splitN (a ++ [46] ++ b ++ [46] ++ c) 46 2 = [a; b; c]) by (apply split3; auto).
  assert (E2 : splitN (a' ++ [46] ++ b' ++ [46] ++ c') 46 2 = [a'; b'; c']) by (apply split3; auto).
  rewrite H, E2 in E1. repeat split; congruence.
Qed.
Lemma accept_row : forall e t1 t2 v db i sc db' j c, claims_int64 e -> clock t1 ->
  parseAuthorization e t1 t2 v true db = (Accept i sc, db') -> carries e v j c -> Nonce c <> [] ->
  i = j /\ fresh db t2 (key j) (Nonce c) /\ In (key j, Nonce c, Exp c) db' /\ (t1 <= Exp c \/ (local e = true /\ Exp c = 0)).
Proof.
  intros e t1 t2 v db i sc db' j c HC HT H HCar HN. unfold parseAuthorization in H. rewrite andb_false_r in H.
  apply carries_decode in HCar. destruct HCar as (h & p & sg & bh & bp & hd & B & D1 & D2 & DH & DP & PH & PC & EA & NK).
  rewrite B in H. apply jwt_accept in H; auto.
  destruct H as (h' & p' & sg' & bh' & bp' & sig & hd' & c' & Et & N1 & N2 & Hh & Hp & Hs & PH' & PC' & VE & VA & HA & _).
  destruct (dot_split_unique _ _ _ _ _ _ D1 D2 N1 N2 Et) as (-> & -> & ->).
  apply component_spec in Hh, Hp. assert (bh' = bh) by congruence. assert (bp' = bp) by congruence. subst bh' bp'.
  assert (hd' = hd) by congruence. assert (c' = c) by congruence. subst hd' c'.
  destruct HA as [(_ & NK' & _ & NN)|(EA' & _)]; [|rewrite EA in EA'; discriminate].
  assert (i = j) by (eapply names_unique; eauto). subst j. split; auto.
  destruct NN as [(NN & _)|(_ & _ & F & ->)]; [contradiction|]. split; auto. split; [left; reflexivity|]. destruct VE as [VE|VE]; [left; lia|auto].
Qed.

Lemma serve_row : forall e rs db k n x j rj v i sc jd c, claims_int64 e -> Forall (fun r => clock (t_exp r)) rs ->
  In (k, n, x) db -> n <> [] ->
  nth_error rs j = Some rj -> (forall m r, (m <= j)%nat -> nth_error rs m = Some r -> t_nonce r <= t_nonce rj) ->
  values rj = [v] -> carries e v jd c -> key jd = k -> Nonce c = n ->
  nth_error (serve e db rs) j = Some (Accept i sc) -> x < t_nonce rj.
Proof.
  intros e. induction rs as [|r rs IH]; intros db k n x j rj v i sc jd c HC HF Hin Hn Hj HM Hv Hcar Hk HN Hacc.
  { destruct j; discriminate. }
  destruct (Z_lt_le_dec x (t_nonce rj)) as [|HX]; auto. exfalso.
  inversion HF; subst. destruct j as [|j].
  - cbn [nth_error] in Hj. assert (r = rj) by congruence. subst r. cbn [serve nth_error] in Hacc.
    unfold parseAuthorizationHeader in Hacc. rewrite Hv in Hacc.
    destruct (parseAuthorization e (t_exp rj) (t_nonce rj) v true db) as [o d] eqn:E. cbn [fst] in Hacc. assert (o = Accept i sc) by congruence. subst o.
    eapply accept_row in E; eauto. destruct E as (_ & F & _). specialize (F _ Hin). lia.
  - cbn [serve nth_error] in Hj, Hacc.
    assert (Hr : t_nonce r <= t_nonce rj) by (apply (HM O r); [lia|reflexivity]).
    assert (Hin' : In (key jd, Nonce c, x) (snd (parseAuthorizationHeader e (t_exp r) (t_nonce r) (values r) (required r) db))).
    { unfold parseAuthorizationHeader. destruct (values r) as [|w [|w' ws]]; [destruct (required r); auto| |auto].
      destruct (parseAuthorization e (t_exp r) (t_nonce r) w true db) as [o d] eqn:E. apply value_db in E. cbn [snd].
      assert (K : In (key jd, Nonce c, x) (filter (fun r0 => negb (snd r0 <? t_nonce r)) db)).
      { apply filter_In. split; auto. cbn [snd]. apply negb_true_iff, Z.ltb_ge. lia. }
      destruct E as [->|[->|(k' & n' & x' & ->)]]; auto. right. auto. }
    assert (HMM : forall m r0, (m <= j)%nat -> nth_error rs m = Some r0 -> t_nonce r0 <= t_nonce rj).
    { intros m r0 Hm Hr0. apply (HM (S m) r0); auto. lia. }
    pose proof (IH _ _ _ _ _ _ _ _ _ _ _ HC H2 Hin' Hn Hj HMM Hv Hcar eq_refl eq_refl Hacc). lia.
Qed.
Lemma serve_twice : forall e rs db i j ri rj vi vj pi pj si sj ii ij ci cj, claims_int64 e -> Forall (fun r => clock (t_exp r)) rs ->
  (i < j)%nat -> nth_error rs i = Some ri -> nth_error rs j = Some rj ->
  (forall m m' r r', (m <= m')%nat -> nth_error rs m = Some r -> nth_error rs m' = Some r' -> t_nonce r <= t_nonce r') ->
  values ri = [vi] -> values rj = [vj] -> carries e vi ii ci -> carries e vj ij cj -> key ii = key ij -> Nonce ci = Nonce cj -> Nonce ci <> [] ->
  nth_error (serve e db rs) i = Some (Accept pi si) -> nth_error (serve e db rs) j = Some (Accept pj sj) ->
  Exp ci < t_nonce rj.
Proof.
  intros e. induction rs as [|r rs IH]; intros db i j ri rj vi vj pi pj si sj ii ij ci cj HC HF Hij Hi Hj HM Hvi Hvj Ci Cj EK EN HN Ai Aj.
  { destruct i; discriminate. }
  inversion HF; subst. destruct j as [|j]; [lia|]. cbn [serve nth_error] in Hj, Aj. destruct i as [|i].
  - cbn [nth_error] in Hi. assert (r = ri) by congruence. subst r. cbn [serve nth_error] in Ai.
    assert (Hin : In (key ij, Nonce cj, Exp ci) (snd (parseAuthorizationHeader e (t_exp ri) (t_nonce ri) (values ri) (required ri) db))).
    { unfold parseAuthorizationHeader in *. rewrite Hvi in *.
      destruct (parseAuthorization e (t_exp ri) (t_nonce ri) vi true db) as [o d] eqn:E. cbn [fst snd] in *. assert (o = Accept pi si) by congruence. subst o.
      eapply accept_row in E; eauto. destruct E as (_ & _ & E & _). rewrite <- EK, <- EN. exact E. }
    eapply (serve_row e rs _ _ _ _ j rj vj pj sj ij cj HC H2 Hin); eauto; try congruence.
    intros m r0 Hm Hr0. apply (HM (S m) (S j) r0 rj); auto. lia.
  - cbn [serve nth_error] in Hi, Ai. eapply (IH _ i j); eauto; try lia.
    intros m m' r0 r1 Hm H0 H3. apply (HM (S m) (S m')); auto. lia.
Qed.

(** Made tokens *)

Lemma b64_no : forall b c, is_bytes b -> c = 46 \/ c = 32 -> ~ In c (b64encode b).
Proof.
  intros b c H Hc HI. pose proof (encode_chars b H) as F. rewrite Forall_forall in F. specialize (F _ HI). destruct (b64char_not _ F) as (_ & _ & A & B). lia.
Qed.
Lemma encode_len : forall b, is_bytes b -> (8 * length b <= 6 * length (b64encode b) < 8 * length b + 6)%nat.
Proof. intros b H. apply base64url_len, quanta_spec, encode_quanta; auto. Qed.
Lemma holds_encode : forall b, is_bytes b -> holds (b64encode b) b.
Proof. intros. apply component_spec, component_encode; auto. Qed.

Lemma bearer_made : forall h p sg, is_bytes h -> h <> [] -> is_bytes p -> (sg = [] \/ (is_bytes sg)) ->
  bearer (bs "Bearer " ++ b64encode h ++ [46] ++ b64encode p ++ [46] ++ b64encode sg) (b64encode h ++ [46] ++ b64encode p ++ [46] ++ b64encode sg).
Proof.
  intros h p sg Hh Hne Hp Hs. exists O, (bs "Bearer"), O, O.
  assert (Hsg : is_bytes sg) by (destruct Hs as [->|]; auto; constructor).
  split; [|split; [|split]].
  - cbn [space repeat app]. rewrite app_nil_r. reflexivity.
  - repeat constructor.
  - pose proof (encode_len h Hh) as L. destruct h as [|a h]; [contradiction|]. destruct (b64encode (a :: h)) as [|x t] eqn:E; [cbn in L; lia|].
    exists x, (t ++ [46] ++ b64encode p ++ [46] ++ b64encode sg). split; auto. intros ->. apply (b64_no _ 32 Hh); auto. rewrite E. cbn; auto.
  - destruct (b64encode sg) as [|y u] eqn:E.
    + exists 46, (b64encode h ++ [46] ++ b64encode p). rewrite <- !app_assoc. split; auto. lia.
    + destruct (exists_last (l := y :: u)) as (w & z & Ez); [discriminate|]. rewrite Ez. exists z, (b64encode h ++ [46] ++ b64encode p ++ [46] ++ w).
      rewrite <- !app_assoc. split; auto. intros ->. apply (b64_no _ 32 Hsg); auto. rewrite E, Ez. apply in_or_app. cbn; auto.
Qed.

(** Panics *)

Lemma value_crash : forall e t1 t2 v db, (local e = true -> nonces e = false) ->
  (fst (parseAuthorization e t1 t2 v true db) = Crash <->
   exists h p sg bh bp sig hd, bearer v (h ++ [46] ++ p ++ [46] ++ sg) /\ ~ In 46 h /\ ~ In 46 p /\ holds h bh /\ holds p bp /\ holds sg sig /\
     parse_header e bh = Some hd /\ Alg hd = bs "EdDSA" /\ Jwk hd = None).
Proof.
  intros e t1 t2 v db HL. unfold parseAuthorization. rewrite andb_false_r. split.
  - destruct (parseBearerToken v) as [tok|] eqn:EB; [|discriminate]. apply bearer_spec in EB. unfold parseJWT.
    destruct (splitN tok 46 2) as [|p0 [|p1 [|p2 [|]]]] eqn:ES; try discriminate. apply split3 in ES. destruct ES as (-> & N0 & N1).
    destruct (decodeJWTComponent p0) as [bh|] eqn:D0; [|discriminate]. destruct (decodeJWTComponent p1) as [bp|] eqn:D1; [|discriminate]. destruct (decodeJWTComponent p2) as [sig|] eqn:D2; [|discriminate].
    apply component_spec in D0, D1, D2.
    destruct (parse_header e bh) as [hd|] eqn:PH; [|discriminate].
    destruct (parseJWTHeader e hd) as [pri| |] eqn:PJ; [|discriminate|].
    + destruct (parse_claims e bp) as [c|]; [|discriminate].
      destruct (negb (verifyExpiration e t1 (Exp c))); [discriminate|]. destruct (negb (verifyAudience e (Aud c))); [discriminate|].
      assert (HP : (exists p, pri = Some p /\ Alg hd = bs "EdDSA") \/ (pri = None /\ Alg hd = bs "none" /\ local e = true)).
      { unfold parseJWTHeader in PJ. destruct (beq (Alg hd) (bs "EdDSA")) eqn:EA.
        - apply beq_spec in EA. left. destruct (Jwk hd); [|discriminate]. destruct (_ && _); [|discriminate]. destruct (ParseEd25519Key (X j)) as [i|]; [|discriminate]. exists i. split; congruence.
        - destruct (beq (Alg hd) (bs "none")) eqn:EN; [|discriminate]. apply beq_spec in EN. destruct (local e); [|discriminate]. right. repeat split; congruence. }
      unfold verifySignature. destruct HP as [(p & -> & ->)|(-> & -> & EL)].
      * rewrite beq_refl. destruct (verify _ _ _ _); [|discriminate]. unfold verifyNonce.
        destruct (Nonce c); cbn [fst snd]; [destruct (validateScope _); discriminate|]. destruct (nonces e); cbn [fst snd]; [|discriminate].
        destruct (fst (CheckNonce _ _ _ _ _)); [destruct (validateScope _); discriminate|discriminate].
      * rewrite (beq_false (bs "none") (bs "EdDSA")) by discriminate. rewrite beq_refl. destruct (len sig =? 0); [|discriminate]. rewrite EL.
        unfold verifyNonce. destruct (Nonce c); cbn [fst snd]; [destruct (validateScope _); discriminate|]. rewrite (HL EL). discriminate.
    + intros _. exists p0, p1, p2, bh, bp, sig, hd. do 7 (split; [assumption|]). unfold parseJWTHeader in PJ. destruct (beq (Alg hd) (bs "EdDSA")) eqn:EA.
      * apply beq_spec in EA. split; auto. destruct (Jwk hd); auto. destruct (_ && _); [|discriminate]. destruct (ParseEd25519Key (X j)); discriminate.
      * destruct (beq (Alg hd) (bs "none")); [|discriminate]. destruct (local e); discriminate.
  - intros (h & p & sg & bh & bp & sig & hd & B & N0 & N1 & D0 & D1 & D2 & PH & EA & EJ). apply bearer_spec in B. rewrite B. unfold parseJWT.
    rewrite (proj2 (split3 _ h p sg)) by auto. apply component_spec in D0, D1, D2. rewrite D0, D1, D2, PH. unfold parseJWTHeader. rewrite EA, beq_refl, EJ. reflexivity.
Qed.
