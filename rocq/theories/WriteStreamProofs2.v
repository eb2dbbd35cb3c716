From Coq Require Import Znumtheory.
From Verif Require Import BaseLemmas StreamState WriteStream WriteStreamProofs.

Definition P (s : wst) : Z := len (acc s) - match chan s with CAdd n => n | _ => 0 end.
Definition C (s : wst) : Z := len (out s).
Definition claim (s : wst) : Z := match chan s with CCopy d => len d | _ => 0 end.
Definition quiet (s : wst) : Prop := chan s = CIdle \/ chan s = CPoke.

Record InvW (s : wst) : Prop := MkW {
  w_size : pow2 (size s) /\ len (buf s) = size s;
  w_pos : produced s = u32 (P s) /\ consumed s = u32 (C s) /\ C s <= P s /\ P s <= len (acc s);
  w_room : len (acc s) + claim s - C s < size s;
  w_ring : forall i, C s <= i < len (acc s) -> at_ (buf s) (i mod size s) = at_ (acc s) i;
  w_out : forall i, 0 <= i < C s -> at_ (out s) i = at_ (acc s) i;
  w_flow : wsub s = u32 (granted s - C s) /\ granted s - C s <= size s - 1;
  w_pc : match pc s with
         | WChk | WSelB | WSelN =>
             cons s = C s mod size s /\
             (sending s = true -> send s = true /\
               ((w s = true /\ 0 < increment s <= size s - 1 - (granted s - C s)) \/ (w s = false /\ increment s = 0))) /\
             (sending s = false -> send s = true -> w s = true /\ s32 (size s - 1 - (granted s - C s)) <= 0)
         | WRd => cons s = C s mod size s
         | WFl => w s = true
         | WWriting lo hi => lo = C s mod size s /\ lo < hi <= size s /\ hi - lo <= P s - C s /\ w s = true
         | WEnd => rcv s = false
         | WStop => rcv s = false \/ closed s = true
         | WDone => (rcv s = false \/ closed s = true) /\ fdata s = skipn (length (out s)) (acc s) /\
                    fpad s = if C s mod size s <=? len (acc s) mod size s then 0 else 2 ^ 32 - size s
         | WError | WCrash => False
         | _ => True
         end;
  w_flows : (send s = true -> Forall (fun x => 0 < x) (flows s)) /\
            (send s = false -> w s = false /\ exists f, flows s = f ++ [0] /\ Forall (fun x => 0 < x) f);
  w_quiet : rcv s = false \/ closed s = true -> quiet s }.

Ltac simpw := cbn [set_pc set_chan take_token close_write size buf rcv produced consumed wsub token closed cancelled chan pc w send done sending increment cons werror fdata fpad acc out flows honest] in *.

Lemma quiet_P s : quiet s -> P s = len (acc s) /\ claim s = 0.
Proof. unfold quiet, P, claim. intros [->| ->]; split; lia. Qed.

Lemma s32_le x : 0 <= x -> s32 x <= x.
Proof. intros H. unfold s32. pose proof (Z.mod_le (x + 2 ^ 31) (2 ^ 32) ltac:(lia) ltac:(lia)). lia. Qed.

Lemma s32_shift a b : s32 (s32 a + b) = s32 (a + b).
Proof.
  unfold s32 at 1 3. f_equal. unfold s32.
  replace ((a + 2 ^ 31) mod 2 ^ 32 - 2 ^ 31 + b + 2 ^ 31) with ((a + 2 ^ 31) mod 2 ^ 32 + b) by lia.
  rewrite Zplus_mod_idemp_l. f_equal. lia.
Qed.

Lemma inc_value sz g : 1 <= sz <= 2 ^ 31 -> s32 (s32 (u32 (u32 sz - u32 g)) - 1) = s32 (sz - 1 - g).
Proof.
  intros H. rewrite (u32_id sz) by lia. rewrite s32_u32.
  change (s32 (sz - u32 g) - 1) with (s32 (sz - u32 g) + -1). rewrite s32_shift.
  rewrite <- s32_u32. rewrite <- (s32_u32 (sz - 1 - g)). f_equal. unfold u32.
  replace (sz - g mod 2 ^ 32 + -1) with (sz - 1 - g mod 2 ^ 32) by lia. apply Zminus_mod_idemp_r.
Qed.

Lemma used_value s : InvW s -> u32 (produced s - consumed s) = P s - C s.
Proof.
  intros I. destruct (w_pos s I) as (H1 & H2 & H3 & H4). pose proof (w_room s I) as HR. destruct (w_size s I) as [HS _].
  apply pow2_bounds in HS. rewrite H1, H2. unfold u32. rewrite <- Zminus_mod. apply Z.mod_small.
  assert (0 <= claim s) by (unfold claim; destruct (chan s); pose proof (len_nonneg (acc s)); try lia; apply len_nonneg). lia.
Qed.

Lemma InvW_init sz hasw : pow2 sz -> InvW (winit sz hasw).
Proof.
  intros HS. pose proof (pow2_bounds sz HS) as [HB HD]. unfold winit, wstart. cbn [InitialState Flags Subscribed Data].
  rewrite u32_id by lia. replace (0 >=? sz) with false by lia.
  constructor; simpw; unfold P, C, claim, granted, quiet; simpw; cbn [len length fold_right]; try (unfold len; cbn [length Z.of_nat]; lia); try tauto.
  - split; [assumption|]. unfold len. rewrite repeat_length. lia.
  - repeat split; unfold len; cbn; lia.
  - split; [unfold len; cbn; reflexivity|unfold len; cbn; lia].
  - split; [intros _; constructor|]. unfold has; cbn. discriminate.
Qed.

Lemma masked_P s : InvW s -> masked (size s) (produced s) = P s mod size s.
Proof.
  intros I. destruct (w_pos s I) as (H1 & _). destruct (w_size s I) as [HS _].
  rewrite H1, masked_mod by (try assumption; apply u32_bound). now apply u32_mod_size.
Qed.
Lemma masked_C s : InvW s -> masked (size s) (consumed s) = C s mod size s.
Proof.
  intros I. destruct (w_pos s I) as (_ & H1 & _). destruct (w_size s I) as [HS _].
  rewrite H1, masked_mod by (try assumption; apply u32_bound). now apply u32_mod_size.
Qed.

(* position arithmetic: [c] consumed, [p] produced, less than one lap apart *)
Lemma lap sz c p : 1 <= sz -> 0 <= c <= p -> p - c < sz ->
  (c mod sz = p mod sz -> c = p) /\
  (c mod sz < p mod sz -> p - c = p mod sz - c mod sz) /\
  (p mod sz < c mod sz -> p - c = sz - c mod sz + p mod sz).
Proof.
  intros H1 H2 H3. pose proof (Z.div_mod c sz ltac:(lia)) as Hc. pose proof (Z.div_mod p sz ltac:(lia)) as Hp.
  pose proof (Z.mod_pos_bound c sz ltac:(lia)). pose proof (Z.mod_pos_bound p sz ltac:(lia)).
  set (qc := c / sz) in *. set (qp := p / sz) in *. set (rc := c mod sz) in *. set (rp := p mod sz) in *. clearbody qc qp rc rp.
  assert (qp = qc \/ qp = qc + 1) as [->| ->] by (assert (qc <= qp) by nia; assert (qp < qc + 2) by nia; lia); split; [|split| |split]; intros; nia.
Qed.

Lemma pos_mod sz c i : 1 <= sz -> 0 <= c -> 0 <= i -> c mod sz + i < sz -> (c + i) mod sz = c mod sz + i.
Proof.
  intros H1 H2 H3 H4. rewrite Zplus_mod, (Z.mod_small i) by (pose proof (Z.mod_pos_bound c sz ltac:(lia)); lia).
  apply Z.mod_small. pose proof (Z.mod_pos_bound c sz ltac:(lia)). lia.
Qed.

Lemma pos_mod_wrap sz c i : 1 <= sz -> 0 <= c -> sz <= c mod sz + i -> c mod sz + i < 2 * sz -> 0 <= i -> (c + i) mod sz = c mod sz + i - sz.
Proof.
  intros H1 H2 H3 H4 H5. pose proof (Z.div_mod c sz ltac:(lia)) as Hc.
  replace (c + i) with (c mod sz + i - sz + (c / sz + 1) * sz) by lia.
  rewrite Z.mod_add by lia. apply Z.mod_small. lia.
Qed.
