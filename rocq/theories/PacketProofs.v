From Verif Require Import BaseLemmas Packet PacketSpec.

Lemma get_put_same off n v b b' :
  put_at off (le n v) b = Ok b' -> get_le off n b' = Ok (v mod 256 ^ Z.of_nat n).
Proof.
  intros E. unfold get_le. rewrite (slice_put_same _ _ _ _ n E) by now rewrite length_le.
  cbn [bind]. now rewrite unle_le.
Qed.

Lemma get_put_other off v b b' o n :
  put_at off v b = Ok b' -> (o + n <= off \/ off + length v <= o)%nat -> get_le o n b' = get_le o n b.
Proof. intros E D. unfold get_le. now rewrite (slice_put_other _ _ _ _ o n E D). Qed.

Lemma content_put off v b b' :
  put_at off v b = Ok b' -> (off + length v <= HeaderSize)%nat -> Content b' = Content b.
Proof.
  intros E D. pose proof (put_at_length _ _ _ _ E) as HL. unfold Content. rewrite HL.
  destruct (Nat.leb_spec HeaderSize (length b)) as [H|H]; [|reflexivity]. f_equal.
  pose proof (slice_put_other off v b b' HeaderSize (length b - HeaderSize) E (or_intror D)) as S.
  rewrite !slice_ok in S by (rewrite ?HL; lia). injection S as S.
  rewrite (firstn_all2 (skipn HeaderSize b')) in S by (rewrite skipn_length; lia).
  rewrite (firstn_all2 (skipn HeaderSize b)) in S by (rewrite skipn_length; lia). exact S.
Qed.

Lemma get_le_ok off n b : (off + n <= length b)%nat -> get_le off n b = Ok (unle (firstn n (skipn off b))).
Proof. intros H. unfold get_le. now rewrite slice_ok. Qed.

Lemma observe_ok b : (8 <= length b)%nat -> exists v, observe b = Ok v /\ len (v_content v) = len b - 8.
Proof.
  intros H. unfold observe, EncodedSize, Code, Domain, Index.
  rewrite !get_le_ok by (unfold OffsetSize, OffsetCode, OffsetDomain, OffsetIndex; lia). cbn [bind].
  unfold Content. destruct (Nat.leb_spec HeaderSize (length b)) as [H'|H']; [|unfold HeaderSize in *; lia].
  cbn [bind]. eexists; split; [reflexivity|]. cbn [v_content].
  unfold len, HeaderSize. rewrite skipn_length. lia.
Qed.

Lemma hstep_observe o b v :
  (8 <= length b)%nat -> len b < 2 ^ 32 -> hop_ok o -> observe b = Ok v ->
  exists b', hstep o b = Ok b' /\ length b' = length b /\ observe b' = Ok (spec_step o v).
Proof.
  intros HL HM HO HV.
  destruct (observe_ok b HL) as (v' & HV' & HC). rewrite HV in HV'. injection HV' as <-.
  destruct o as [|c|i]; cbn [hstep hop_ok] in *.
  - unfold SetSize. replace (len b >? 4294967295) with false by (symmetry; lia).
    destruct (put_at_is_ok OffsetSize (le 4 (u32 (len b))) b) as [b' E];
      [rewrite length_le; unfold OffsetSize; lia|].
    exists b'. split; [exact E|]. split; [now apply put_at_length in E|].
    unfold observe in *. unfold EncodedSize, Code, Domain, Index in *.
    rewrite (get_put_same _ _ _ _ _ E).
    rewrite !(get_put_other _ _ _ _ _ _ E) by (rewrite length_le; vm_compute; lia).
    rewrite (content_put _ _ _ _ E) by (rewrite length_le; vm_compute; lia).
    destruct (get_le OffsetSize 4 b) as [s| |]; cbn [bind] in *; try discriminate.
    destruct (get_le OffsetCode 2 b) as [c| |]; cbn [bind] in *; try discriminate.
    destruct (get_le OffsetDomain 1 b) as [d| |]; cbn [bind] in *; try discriminate.
    destruct (get_le OffsetIndex 1 b) as [i| |]; cbn [bind] in *; try discriminate.
    destruct (Content b) as [k| |]; cbn [bind] in *; try discriminate.
    injection HV as <-. cbn [spec_step v_content v_size v_code v_domain v_index] in *. do 2 f_equal.
    unfold u32. change (256 ^ Z.of_nat 4) with (2 ^ 32). pose proof (len_nonneg b).
    rewrite !Z.mod_small by lia. lia.
  - unfold SetCode.
    destruct (put_at_is_ok OffsetCode (le 2 (u16 c)) b) as [b' E];
      [rewrite length_le; unfold OffsetCode; lia|].
    exists b'. split; [exact E|]. split; [now apply put_at_length in E|].
    unfold observe in *. unfold EncodedSize, Code, Domain, Index in *.
    rewrite (get_put_same _ _ _ _ _ E).
    rewrite !(get_put_other _ _ _ _ _ _ E) by (rewrite length_le; vm_compute; lia).
    rewrite (content_put _ _ _ _ E) by (rewrite length_le; vm_compute; lia).
    destruct (get_le OffsetSize 4 b) as [s| |]; cbn [bind] in *; try discriminate.
    destruct (get_le OffsetCode 2 b) as [c0| |]; cbn [bind] in *; try discriminate.
    destruct (get_le OffsetDomain 1 b) as [d| |]; cbn [bind] in *; try discriminate.
    destruct (get_le OffsetIndex 1 b) as [i| |]; cbn [bind] in *; try discriminate.
    destruct (Content b) as [k| |]; cbn [bind] in *; try discriminate.
    injection HV as <-. cbn [spec_step v_content v_size v_code v_domain v_index] in *. do 2 f_equal.
    change (256 ^ Z.of_nat 2) with (2 ^ 16).
    unfold u16. rewrite Zmod_mod. change (c mod 2 ^ 16) with (u16 c). rewrite s16_u16. now apply s16_id.
  - unfold SetIndex.
    destruct (put_at_is_ok OffsetIndex (le 1 i) b) as [b' E];
      [rewrite length_le; unfold OffsetIndex; lia|].
    exists b'. split; [exact E|]. split; [now apply put_at_length in E|].
    unfold observe in *. unfold EncodedSize, Code, Domain, Index in *.
    rewrite (get_put_same _ _ _ _ _ E).
    rewrite !(get_put_other _ _ _ _ _ _ E) by (rewrite length_le; vm_compute; lia).
    rewrite (content_put _ _ _ _ E) by (rewrite length_le; vm_compute; lia).
    destruct (get_le OffsetSize 4 b) as [s| |]; cbn [bind] in *; try discriminate.
    destruct (get_le OffsetCode 2 b) as [c0| |]; cbn [bind] in *; try discriminate.
    destruct (get_le OffsetDomain 1 b) as [d| |]; cbn [bind] in *; try discriminate.
    destruct (get_le OffsetIndex 1 b) as [i0| |]; cbn [bind] in *; try discriminate.
    destruct (Content b) as [k| |]; cbn [bind] in *; try discriminate.
    injection HV as <-. cbn [spec_step v_content v_size v_code v_domain v_index] in *. do 2 f_equal.
    change (256 ^ Z.of_nat 1) with 256. now apply Z.mod_small.
Qed.

Lemma hrun_observe ops : forall b v,
  (8 <= length b)%nat -> len b < 2 ^ 32 -> Forall hop_ok ops -> observe b = Ok v ->
  exists b', hrun ops b = Ok b' /\ length b' = length b /\ observe b' = Ok (fold_left (fun v o => spec_step o v) ops v).
Proof.
  induction ops as [|o t IH]; intros b v HL HM HF HV; cbn [hrun fold_left].
  - exists b; auto.
  - inversion HF as [|? ? Ho Ht]; subst.
    destruct (hstep_observe o b v HL HM Ho HV) as (b1 & E & L1 & O1). rewrite E. cbn [bind].
    assert (len b1 = len b) as LL by (unfold len; now rewrite L1).
    destruct (IH b1 (spec_step o v)) as (b2 & E2 & L2 & O2); [lia|lia|assumption|assumption|].
    exists b2. repeat split; try assumption. lia.
Qed.

Lemma skipn_zeros n m : skipn n (zeros m) = zeros (m - n).
Proof.
  revert m; induction n as [|n IH]; intros m; cbn [skipn].
  - now rewrite Nat.sub_0_r.
  - destruct m; [reflexivity|]. cbn [zeros repeat Nat.sub]. apply IH.
Qed.

Lemma make_observe code dom n :
  -2 ^ 15 <= code < 2 ^ 15 -> 0 <= dom < 16 ->
  exists b, Make code dom (8 + n) = Ok b /\ length b = (8 + n)%nat /\ observe b = Ok (View 0 code dom 0 (zeros n)).
Proof.
  intros Hc Hd. unfold Make.
  assert (length (zeros (8 + n)) = (8 + n)%nat) as HZ by apply repeat_length.
  assert (observe (zeros (8 + n)) = Ok (View 0 0 0 0 (zeros n))) as HO.
  { unfold zeros. cbn [repeat Nat.add]. unfold observe, EncodedSize, Code, Domain, Index, Content, get_le, slice. cbn. reflexivity. }
  unfold SetCode.
  destruct (put_at_is_ok OffsetCode (le 2 (u16 code)) (zeros (8 + n))) as [b1 E1];
    [rewrite length_le, HZ; unfold OffsetCode; lia|].
  rewrite E1; cbn [bind].
  pose proof (put_at_length _ _ _ _ E1) as L1. rewrite HZ in L1.
  destruct (put_at_is_ok OffsetDomain (le 1 dom) b1) as [b2 E2];
    [rewrite length_le, L1; unfold OffsetDomain; lia|].
  pose proof (put_at_length _ _ _ _ E2) as L2. rewrite L1 in L2.
  exists b2. split; [exact E2|]. split; [exact L2|].
  unfold observe, EncodedSize, Code, Domain, Index in *.
  rewrite (get_put_same _ _ _ _ _ E2).
  rewrite !(get_put_other _ _ _ _ _ _ E2) by (rewrite length_le; vm_compute; lia).
  rewrite (get_put_same _ _ _ _ _ E1).
  rewrite !(get_put_other _ _ _ _ _ _ E1) by (rewrite length_le; vm_compute; lia).
  rewrite (content_put _ _ _ _ E2) by (rewrite length_le; vm_compute; lia).
  rewrite (content_put _ _ _ _ E1) by (rewrite length_le; vm_compute; lia).
  destruct (get_le OffsetSize 4 (zeros (8 + n))) as [s| |]; cbn [bind] in *; try discriminate.
  destruct (get_le OffsetCode 2 (zeros (8 + n))) as [c0| |]; cbn [bind] in *; try discriminate.
  destruct (get_le OffsetDomain 1 (zeros (8 + n))) as [d| |]; cbn [bind] in *; try discriminate.
  destruct (get_le OffsetIndex 1 (zeros (8 + n))) as [i0| |]; cbn [bind] in *; try discriminate.
  destruct (Content (zeros (8 + n))) as [k| |]; cbn [bind] in *; try discriminate.
  injection HO as -> _ _ -> ->. do 2 f_equal.
  - change (256 ^ Z.of_nat 2) with (2 ^ 16). unfold u16. rewrite Zmod_mod.
    change (code mod 2 ^ 16) with (u16 code). rewrite s16_u16. now apply s16_id.
  - change (256 ^ Z.of_nat 1) with 256. rewrite Z.mod_small by lia.
    change 15 with (Z.ones 4). rewrite Z.land_ones by lia. now apply Z.mod_small.
Qed.

Lemma valid_header_eq b n c d v : (8 <= n)%nat -> observe b = Ok v ->
  isValidHeader b n c d = Ok (Nat.leb n (length b) && ((v_code v =? c) && (v_domain v =? d))).
Proof.
  intros Hn O. unfold isValidHeader. destruct (Nat.leb n (length b)); cbn [negb andb]; [|reflexivity].
  unfold observe in O.
  destruct (EncodedSize b) as [?| |]; cbn [bind] in O; try discriminate.
  destruct (Code b) as [c'| |]; cbn [bind] in *; try discriminate.
  destruct (Domain b) as [d'| |]; cbn [bind] in *; try discriminate.
  destruct (Index b) as [?| |]; cbn [bind] in O; try discriminate.
  destruct (Content b) as [?| |]; cbn [bind] in O; try discriminate.
  injection O as <-. cbn [v_code v_domain]. destruct (c' =? c); reflexivity.
Qed.

Lemma flow_entries_true b n : forall i,
  (forall j, (i <= j < i + n)%nat -> exists e, FlowGet j b = Ok e /\ 0 <= fst e /\ 0 <= snd e) ->
  flowEntriesOk b i n = Ok true.
Proof.
  induction n as [|n IH]; intros i H; cbn [flowEntriesOk]; [reflexivity|].
  destruct (H i ltac:(lia)) as ([id inc] & E & H1 & H2). rewrite E. cbn [bind fst snd] in *.
  replace ((id <? 0) || (inc <? 0)) with false by (symmetry; lia).
  apply IH. intros j Hj. apply H. lia.
Qed.

(* ---- flow ---- *)
Lemma s32_stored x : int32_ok x -> s32 ((u32 x) mod 256 ^ Z.of_nat 4) = x.
Proof.
  intros H. change (256 ^ Z.of_nat 4) with (2 ^ 32). unfold u32. rewrite Zmod_mod.
  change (x mod 2 ^ 32) with (u32 x). rewrite s32_u32. now apply s32_id.
Qed.

Lemma flowset_ok i id inc b :
  (8 + i * 8 + 8 <= length b)%nat -> int32_ok id -> int32_ok inc ->
  exists b', FlowSet i id inc b = Ok b' /\ length b' = length b /\
    FlowGet i b' = Ok (id, inc) /\
    (forall j, j <> i -> FlowGet j b' = FlowGet j b) /\
    (forall v, observe b = Ok v -> exists k, observe b' = Ok (View (v_size v) (v_code v) (v_domain v) (v_index v) k)).
Proof.
  intros HL Hid Hinc. unfold FlowSet, FlowHeaderSize, flowSize.
  destruct (put_at_is_ok (8 + i * 8) (le 4 (u32 id)) b) as [b1 E1]; [rewrite length_le; lia|].
  rewrite E1; cbn [bind]. pose proof (put_at_length _ _ _ _ E1) as L1.
  destruct (put_at_is_ok (8 + i * 8 + 4) (le 4 (u32 inc)) b1) as [b2 E2]; [rewrite length_le; lia|].
  pose proof (put_at_length _ _ _ _ E2) as L2.
  exists b2. split; [exact E2|]. split; [lia|].
  split; [|split].
  - unfold FlowGet, FlowHeaderSize, flowSize.
    rewrite (get_put_other _ _ _ _ _ _ E2) by (rewrite length_le; lia).
    rewrite (get_put_same _ _ _ _ _ E1), (get_put_same _ _ _ _ _ E2). cbn [bind].
    now rewrite !s32_stored.
  - intros j Hj. unfold FlowGet, FlowHeaderSize, flowSize.
    rewrite !(get_put_other _ _ _ _ _ _ E2) by (rewrite length_le; lia).
    rewrite !(get_put_other _ _ _ _ _ _ E1) by (rewrite length_le; lia). reflexivity.
  - intros v HV. unfold observe, EncodedSize, Code, Domain, Index in *.
    rewrite !(get_put_other _ _ _ _ _ _ E2) by (rewrite length_le; unfold OffsetSize, OffsetCode, OffsetDomain, OffsetIndex; lia).
    rewrite !(get_put_other _ _ _ _ _ _ E1) by (rewrite length_le; unfold OffsetSize, OffsetCode, OffsetDomain, OffsetIndex; lia).
    destruct (get_le OffsetSize 4 b) as [s| |]; cbn [bind] in *; try discriminate.
    destruct (get_le OffsetCode 2 b) as [c0| |]; cbn [bind] in *; try discriminate.
    destruct (get_le OffsetDomain 1 b) as [d| |]; cbn [bind] in *; try discriminate.
    destruct (get_le OffsetIndex 1 b) as [i0| |]; cbn [bind] in *; try discriminate.
    destruct (Content b) as [k| |]; cbn [bind] in *; try discriminate. injection HV as <-.
    unfold Content, HeaderSize. destruct (Nat.leb_spec 8 (length b2)) as [H|H]; [|lia].
    cbn [bind]. eexists; reflexivity.
Qed.

Definition fop_ok (n : nat) (o : nat * (Z * Z)) : Prop :=
  (fst o < n)%nat /\ int32_ok (fst (snd o)) /\ int32_ok (snd (snd o)).

Lemma frun_ok n ops : forall b v,
  (length b = 8 + n * 8)%nat -> Forall (fop_ok n) ops -> observe b = Ok v ->
  exists b', frun ops b = Ok b' /\ length b' = length b /\
    (forall i init, FlowGet i b = Ok init -> FlowGet i b' = Ok (last_write ops i init)) /\
    exists k, observe b' = Ok (View (v_size v) (v_code v) (v_domain v) (v_index v) k).
Proof.
  induction ops as [|[j [id inc]] t IH]; intros b v HL HF HV; cbn [frun].
  - exists b. split; [reflexivity|]. split; [reflexivity|]. split; [auto|].
    exists (v_content v). destruct v; exact HV.
  - inversion HF as [|? ? (Hj & Hid & Hinc) Ht]; subst. cbn [fst snd] in *.
    destruct (flowset_ok j id inc b) as (b1 & E & L1 & G & O & V); [lia|assumption|assumption|].
    rewrite E; cbn [bind]. destruct (V v HV) as (k & HV1).
    destruct (IH b1 _ ltac:(lia) Ht HV1) as (b2 & E2 & L2 & G2 & K2).
    exists b2. split; [exact E2|]. split; [lia|]. split.
    + intros i init Hi. cbn [last_write].
      destruct (Nat.eqb_spec i j) as [->|Hne].
      * now apply G2.
      * apply G2. now rewrite (O i Hne).
    + exact K2.
Qed.

Lemma flowget_zero i n b : b = zeros (8 + n * 8) -> (i < n)%nat -> FlowGet i b = Ok (0, 0).
Proof.
  intros -> Hi. unfold FlowGet, FlowHeaderSize, flowSize.
  assert (length (zeros (8 + n * 8)) = (8 + n * 8)%nat) as HZ by apply repeat_length.
  rewrite !get_le_ok by lia. cbn [bind]. rewrite !skipn_zeros.
  destruct (8 + n * 8 - (8 + i * 8))%nat as [|[|[|[|m]]]] eqn:E1; try lia.
  destruct (8 + n * 8 - (8 + i * 8 + 4))%nat as [|[|[|[|m']]]] eqn:E2; try lia.
  reflexivity.
Qed.

Lemma makeflows_ok code n : -2 ^ 15 <= code < 2 ^ 15 ->
  exists b, MakeFlows code n = Ok b /\ (length b = 8 + n * 8)%nat /\
    observe b = Ok (View 0 code DomainFlow 0 (zeros (n * 8))) /\ (forall i, (i < n)%nat -> FlowGet i b = Ok (0, 0)).
Proof.
  intros Hc. unfold MakeFlows, FlowHeaderSize, flowSize.
  destruct (make_observe code DomainFlow (n * 8) Hc) as (b & E & L & O); [unfold DomainFlow; lia|].
  exists b. split; [exact E|]. split; [exact L|]. split; [exact O|].
  intros i Hi. unfold Make, SetCode in E.
  destruct (put_at OffsetCode (le 2 (u16 code)) (zeros (8 + n * 8))) as [b1| |] eqn:E1; cbn [bind] in E; try discriminate.
  rewrite <- (flowget_zero i n _ eq_refl Hi). unfold FlowGet.
  rewrite !(get_put_other _ _ _ _ _ _ E) by (rewrite length_le; vm_compute; lia).
  rewrite !(get_put_other _ _ _ _ _ _ E1) by (rewrite length_le; vm_compute; lia). reflexivity.
Qed.

Lemma num_ok b n : (length b = 8 + n * 8)%nat -> Num b = Z.of_nat n.
Proof. intros H. unfold Num, len. rewrite H. rewrite Z.quot_div_nonneg by lia. lia. Qed.

Lemma flow_history code n ops :
  -2 ^ 15 <= code < 2 ^ 15 -> Forall (fop_ok n) ops ->
  exists b0 b, MakeFlows code n = Ok b0 /\ frun ops b0 = Ok b /\ Num b = Z.of_nat n /\
    (forall i, (i < n)%nat -> FlowGet i b = Ok (last_write ops i (0, 0))) /\
    (exists k, observe b = Ok (View 0 code DomainFlow 0 k)) /\
    (Forall (fun o => 0 <= fst (snd o) /\ 0 <= snd (snd o)) ops -> IsValidFlow b code = Ok true).
Proof.
  intros Hc HF. destruct (makeflows_ok code n Hc) as (b0 & E0 & L0 & O0 & Z0).
  destruct (frun_ok n ops b0 _ L0 HF O0) as (b & E & L & G & k & O).
  exists b0, b. split; [exact E0|]. split; [exact E|].
  assert (Num b = Z.of_nat n) as HN by (apply num_ok; lia).
  assert (forall i, (i < n)%nat -> FlowGet i b = Ok (last_write ops i (0, 0))) as HG
    by (intros i Hi; apply G, Z0, Hi).
  split; [exact HN|]. split; [exact HG|]. split; [exists k; exact O|].
  intros HP. unfold IsValidFlow.
  rewrite (valid_header_eq b FlowHeaderSize code DomainFlow _ ltac:(vm_compute; lia) O).
  cbn [v_code v_domain]. rewrite !Z.eqb_refl.
  replace (Nat.leb FlowHeaderSize (length b)) with true by (symmetry; apply Nat.leb_le; unfold FlowHeaderSize; lia).
  cbn [andb bind negb].
  assert (Z.land (len b) 7 = 0) as ->.
  { change 7 with (Z.ones 3). rewrite Z.land_ones by lia. unfold len. rewrite L, L0.
    change (2 ^ 3) with 8. lia. }
  cbn [Z.eqb negb]. rewrite HN, Nat2Z.id.
  apply flow_entries_true. intros i Hi. exists (last_write ops i (0, 0)). split; [apply HG; lia|].
  assert (forall ops init, Forall (fun o : nat * (Z * Z) => 0 <= fst (snd o) /\ 0 <= snd (snd o)) ops ->
    0 <= fst init /\ 0 <= snd init -> 0 <= fst (last_write ops i init) /\ 0 <= snd (last_write ops i init)) as HW.
  { clear. induction ops as [|[j [x y]] t IH]; intros init HF HI; cbn [last_write]; [exact HI|].
    inversion HF; subst. apply IH; [assumption|]. destruct (Nat.eqb i j); cbn in *; auto. }
  exact (HW ops (0, 0) HP ltac:(cbn; lia)).
Qed.

(* Validity checks on arbitrary bytes. *)
Lemma flow_entries_spec b n : forall i,
  (8 + (i + n) * 8 <= length b)%nat ->
  exists r, flowEntriesOk b i n = Ok r /\
    (r = true <-> forall j, (i <= j < i + n)%nat -> exists id inc, FlowGet j b = Ok (id, inc) /\ 0 <= id /\ 0 <= inc).
Proof.
  induction n as [|n IH]; intros i H; cbn [flowEntriesOk].
  - exists true. split; [reflexivity|]. split; [|reflexivity]. intros _ j Hj. lia.
  - assert (exists id inc, FlowGet i b = Ok (id, inc)) as (id & inc & E).
    { unfold FlowGet, FlowHeaderSize, flowSize. rewrite !get_le_ok by lia. cbn [bind]. eauto. }
    rewrite E. cbn [bind].
    destruct ((id <? 0) || (inc <? 0)) eqn:B.
    + exists false. split; [reflexivity|]. split; [discriminate|]. intros HA.
      destruct (HA i ltac:(lia)) as (id' & inc' & E' & ? & ?). rewrite E in E'. injection E' as <- <-. lia.
    + destruct (IH (S i) ltac:(lia)) as (r & Er & HR). exists r. split; [exact Er|]. rewrite HR. split.
      * intros HA j Hj. destruct (Nat.eq_dec j i) as [->|Hne]; [exists id, inc; repeat split; [exact E|lia|lia]|].
        apply HA. lia.
      * intros HA j Hj. apply HA. lia.
Qed.

Lemma valid_flow_spec b c :
  exists r, IsValidFlow b c = Ok r /\
  (r = true <-> (exists v, observe b = Ok v /\ v_code v = c /\ v_domain v = DomainFlow) /\ len b mod 8 = 0 /\
     forall i, (8 + 8 * i + 8 <= length b)%nat -> exists id inc, FlowGet i b = Ok (id, inc) /\ 0 <= id /\ 0 <= inc).
Proof.
  unfold IsValidFlow.
  destruct (Nat.leb_spec 8 (length b)) as [HL|HL].
  2:{ unfold isValidHeader. replace (Nat.leb FlowHeaderSize (length b)) with false by (symmetry; apply Nat.leb_gt; exact HL).
      cbn [negb bind]. exists false. split; [reflexivity|]. split; [discriminate|].
      intros ((v & O & _) & _). unfold observe, Content in O.
      replace (Nat.leb HeaderSize (length b)) with false in O by (symmetry; apply Nat.leb_gt; exact HL).
      destruct (EncodedSize b); cbn [bind] in O; try discriminate.
      destruct (Code b); cbn [bind] in O; try discriminate.
      destruct (Domain b); cbn [bind] in O; try discriminate.
      destruct (Index b); cbn [bind] in O; discriminate. }
  destruct (observe_ok b HL) as (v & O & _).
  rewrite (valid_header_eq b FlowHeaderSize c DomainFlow v ltac:(vm_compute; lia) O).
  replace (Nat.leb FlowHeaderSize (length b)) with true by (symmetry; apply Nat.leb_le; exact HL).
  cbn [andb bind].
  destruct ((v_code v =? c) && (v_domain v =? DomainFlow)) eqn:HC; cbn [negb].
  2:{ exists false. split; [reflexivity|]. split; [discriminate|].
      intros ((v' & O' & H1 & H2) & _). rewrite O in O'. injection O' as <-. lia. }
  assert (Z.land (len b) 7 = len b mod 8) as ->.
  { change 7 with (Z.ones 3). now rewrite Z.land_ones by lia. }
  destruct (len b mod 8 =? 0) eqn:HM; cbn [negb].
  2:{ exists false. split; [reflexivity|]. split; [discriminate|]. intros (_ & H & _). lia. }
  unfold Num. rewrite Z.quot_div_nonneg by (unfold len; lia).
  assert (length b = 8 + Z.to_nat ((len b - 8) / 8) * 8)%nat as HLL by (unfold len in *; lia).
  destruct (flow_entries_spec b (Z.to_nat ((len b - 8) / 8)) 0 ltac:(lia)) as (r & Er & HR).
  exists r. split; [exact Er|]. rewrite HR. split.
  - intros HA. split; [exists v; repeat split; [exact O|lia|lia]|]. split; [lia|].
    intros i Hi. apply HA. lia.
  - intros (_ & _ & HA) j Hj. apply HA. lia.
Qed.

Lemma import_data_spec b c :
  (exists v id, observe b = Ok v /\ v_code v = c /\ v_domain v = DomainData /\ 16 <= len b /\
     DataID b = Ok id /\ 0 <= id /\ ImportData b c = Ok b) \/
  (ImportData b c = Err /\ ~ (exists v id, observe b = Ok v /\ v_code v = c /\ v_domain v = DomainData /\ 16 <= len b /\
     DataID b = Ok id /\ 0 <= id)).
Proof.
  unfold ImportData.
  destruct (Nat.leb_spec 16 (length b)) as [HL|HL].
  2:{ right. unfold isValidHeader. replace (Nat.leb DataHeaderSize (length b)) with false by (symmetry; apply Nat.leb_gt; exact HL).
      cbn [negb bind]. split; [reflexivity|]. intros (v & id & _ & _ & _ & H & _). unfold len in H. lia. }
  destruct (observe_ok b ltac:(lia)) as (v & O & _).
  rewrite (valid_header_eq b DataHeaderSize c DomainData v ltac:(vm_compute; lia) O).
  replace (Nat.leb DataHeaderSize (length b)) with true by (symmetry; apply Nat.leb_le; exact HL).
  cbn [andb bind].
  destruct ((v_code v =? c) && (v_domain v =? DomainData)) eqn:HC; cbn [negb].
  2:{ right. split; [reflexivity|]. intros (v' & id & O' & H1 & H2 & _). rewrite O in O'. injection O' as <-. lia. }
  assert (exists id, DataID b = Ok id) as (id & E).
  { unfold DataID. rewrite get_le_ok by (unfold OffsetDataID; lia). cbn [bind]. eauto. }
  rewrite E. cbn [bind]. destruct (id <? 0) eqn:HI.
  - right. split; [reflexivity|]. intros (v' & id' & _ & _ & _ & _ & E' & H). injection E' as <-. lia.
  - left. exists v, id. repeat split; try assumption; unfold len; lia.
Qed.

(* ---- Split ---- *)
Lemma Align_spec x : Align x = 8 * ((x + 7) / 8).
Proof.
  unfold Align. change (Z.lnot 7) with (Z.lnot (Z.ones 3)). rewrite <- Z.ldiff_land.
  rewrite Z.ldiff_ones_r by lia. rewrite Z.shiftl_mul_pow2, Z.shiftr_div_pow2 by lia.
  change (2 ^ 3) with 8. lia.
Qed.

Lemma split_ok hs pl b :
  (hs <= pl)%nat -> (pl <= length b)%nat ->
  exists unused, Split hs pl b = Ok (firstn pl b, unused) /\
    len unused = Z.max 0 (len b - Align (Z.of_nat pl)) /\
    (Z.of_nat hs <= len unused -> firstn hs unused = firstn hs b /\
       skipn hs unused = skipn (Z.to_nat (Align (Z.of_nat pl)) + hs) b).
Proof.
  intros Hh Hp. unfold Split. rewrite Align_spec.
  set (c := Z.to_nat (8 * ((Z.of_nat pl + 7) / 8))).
  assert (Z.of_nat pl <= Z.of_nat c < Z.of_nat pl + 8) as Hc by (unfold c; lia).
  destruct (Nat.ltb_spec (Nat.min c (length b)) pl) as [H|H]; [lia|].
  destruct (Nat.ltb_spec (length (skipn (Nat.min c (length b)) b)) hs) as [H1|H1].
  - eexists; split; [reflexivity|]. rewrite skipn_length in H1. unfold len. rewrite skipn_length.
    split; [lia|]. intros H2. lia.
  - destruct (Nat.ltb_spec (Nat.min c (length b)) hs) as [H2|H2]; [lia|].
    eexists; split; [reflexivity|]. rewrite skipn_length in H1. unfold len.
    rewrite app_length, firstn_length, !skipn_length. split; [lia|]. intros H3.
    rewrite firstn_app_exact by (rewrite firstn_length; lia).
    rewrite skipn_app_exact by (rewrite firstn_length; lia).
    split; [reflexivity|]. rewrite skipn_skipn.
    destruct (Nat.le_gt_cases c (length b)) as [H4|H4].
    + f_equal. lia.
    + rewrite !skipn_all2 by lia. reflexivity.
Qed.

(* Data packets *)
Lemma observe_put_content off v b b' w : put_at off v b = Ok b' -> (8 <= off)%nat -> observe b = Ok w ->
  exists k, observe b' = Ok (View (v_size w) (v_code w) (v_domain w) (v_index w) k).
Proof.
  intros E HO HV. pose proof (put_at_length _ _ _ _ E) as L. unfold observe, EncodedSize, Code, Domain, Index in *.
  rewrite !(get_put_other _ _ _ _ _ _ E) by (unfold OffsetSize, OffsetCode, OffsetDomain, OffsetIndex; lia).
  destruct (get_le OffsetSize 4 b) as [s| |]; cbn [bind] in *; try discriminate.
  destruct (get_le OffsetCode 2 b) as [c0| |]; cbn [bind] in *; try discriminate.
  destruct (get_le OffsetDomain 1 b) as [d| |]; cbn [bind] in *; try discriminate.
  destruct (get_le OffsetIndex 1 b) as [i0| |]; cbn [bind] in *; try discriminate.
  unfold Content in *. rewrite L. destruct (Nat.leb HeaderSize (length b)); [|discriminate]. cbn [bind] in *. injection HV as <-. eexists; reflexivity.
Qed.
Lemma data_put off v b b' : put_at off v b = Ok b' -> (off + length v <= 16)%nat -> Data b' = Data b.
Proof.
  intros E D. pose proof (put_at_length _ _ _ _ E) as HL. unfold Data. rewrite HL.
  destruct (Nat.leb_spec DataHeaderSize (length b)) as [H|H]; [|reflexivity]. f_equal.
  pose proof (slice_put_other off v b b' DataHeaderSize (length b - DataHeaderSize) E (or_intror D)) as S.
  rewrite !slice_ok in S by (rewrite ?HL; lia).
  rewrite (firstn_all2 (skipn DataHeaderSize b')) in S by (rewrite skipn_length; lia).
  rewrite (firstn_all2 (skipn DataHeaderSize b)) in S by (rewrite skipn_length; lia). congruence.
Qed.
Lemma setnotes_ok notes : forall b id note w, (16 <= length b)%nat -> Forall int32_ok notes ->
  DataID b = Ok id -> DataNote b = Ok note -> observe b = Ok w ->
  exists b' k, fold_left (fun r v => do b <- r; SetNote v b) notes (Ok b) = Ok b' /\ length b' = length b /\
    DataID b' = Ok id /\ DataNote b' = Ok (last notes note) /\ Data b' = Data b /\
    observe b' = Ok (View (v_size w) (v_code w) (v_domain w) (v_index w) k).
Proof.
  induction notes as [|x t IH]; intros b id note w HL HF HI HN HO.
  - exists b, (v_content w). cbn. destruct w; auto 10.
  - inversion HF; subst. cbn [fold_left bind].
    destruct (put_at_is_ok OffsetDataNote (le 4 (u32 x)) b) as [b1 E1]; [rewrite length_le; unfold OffsetDataNote; lia|].
    unfold SetNote at 2. rewrite E1. pose proof (put_at_length _ _ _ _ E1) as L1.
    destruct (observe_put_content _ _ _ _ _ E1 ltac:(unfold OffsetDataNote; lia) HO) as [k1 O1].
    assert (I1 : DataID b1 = Ok id).
    { unfold DataID in *. rewrite (get_put_other _ _ _ _ _ _ E1) by (unfold OffsetDataID, OffsetDataNote; lia). exact HI. }
    assert (N1 : DataNote b1 = Ok x).
    { unfold DataNote. rewrite (get_put_same _ _ _ _ _ E1). cbn [bind]. now rewrite s32_stored. }
    destruct (IH b1 id x _ ltac:(lia) H2 I1 N1 O1) as (b' & k & F & L & I & N & D & O).
    exists b', k. split; [exact F|]. split; [lia|]. split; [exact I|]. split; [|split].
    + rewrite N. destruct t as [|y t]; [reflexivity|]. cbn [last]. clear. f_equal. revert y. induction t; intros; auto. cbn in *. apply IHt.
    + rewrite D. apply (data_put _ _ _ _ E1). rewrite length_le. unfold OffsetDataNote. lia.
    + exact O.
Qed.
Lemma data_history code id n notes : -2 ^ 15 <= code < 2 ^ 15 -> int32_ok id -> Forall int32_ok notes ->
  exists b k, fold_left (fun r v => do b <- r; SetNote v b) notes (MakeData code id n) = Ok b /\
    DataID b = Ok id /\ DataNote b = Ok (last notes 0) /\ Data b = Ok (zeros n) /\ DataLen b = Z.of_nat n /\
    observe b = Ok (View 0 code DomainData 0 k).
Proof.
  intros Hc Hi HF. unfold MakeData, DataHeaderSize. change (16 + n)%nat with (8 + (8 + n))%nat.
  destruct (make_observe code DomainData (8 + n) Hc ltac:(unfold DomainData; lia)) as (b0 & E0 & L0 & O0). rewrite E0. cbn [bind].
  destruct (put_at_is_ok OffsetDataID (le 4 (u32 id)) b0) as [b1 E1]; [rewrite length_le; unfold OffsetDataID; lia|]. rewrite E1.
  pose proof (put_at_length _ _ _ _ E1) as L1.
  destruct (observe_put_content _ _ _ _ _ E1 ltac:(unfold OffsetDataID; lia) O0) as [k1 O1].
  assert (I1 : DataID b1 = Ok id).
  { unfold DataID. rewrite (get_put_same _ _ _ _ _ E1). cbn [bind]. now rewrite s32_stored. }
  assert (C0 : skipn 8 b0 = zeros (8 + n)).
  { unfold observe in O0. destruct (EncodedSize b0); cbn [bind] in O0; try discriminate. destruct (Code b0); cbn [bind] in O0; try discriminate.
    destruct (Domain b0); cbn [bind] in O0; try discriminate. destruct (Index b0); cbn [bind] in O0; try discriminate.
    unfold Content, HeaderSize in O0. destruct (Nat.leb 8 (length b0)); cbn [bind] in O0; [|discriminate]. congruence. }
  assert (N1 : DataNote b1 = Ok 0).
  { unfold DataNote. rewrite (get_put_other _ _ _ _ _ _ E1) by (rewrite length_le; unfold OffsetDataID, OffsetDataNote; lia).
    rewrite get_le_ok by (unfold OffsetDataNote; lia). cbn [bind]. replace (skipn OffsetDataNote b0) with (skipn 4 (skipn 8 b0)) by (rewrite skipn_skipn; reflexivity).
    rewrite C0, skipn_zeros. reflexivity. }
  assert (D1 : Data b1 = Ok (zeros n)).
  { rewrite (data_put _ _ _ _ E1) by (rewrite length_le; unfold OffsetDataID; lia). unfold Data, DataHeaderSize.
    destruct (Nat.leb_spec 16 (length b0)) as [H|H]; [|lia]. f_equal. replace (skipn 16 b0) with (skipn 8 (skipn 8 b0)) by (rewrite skipn_skipn; reflexivity).
    rewrite C0, skipn_zeros. f_equal. lia. }
  destruct (setnotes_ok notes b1 id 0 _ ltac:(lia) HF I1 N1 O1) as (b & k & F & L & I & N & D & O).
  exists b, k. split; [exact F|]. split; [exact I|]. split; [exact N|]. split; [congruence|]. split; [|exact O].
  unfold DataLen, len. lia.
Qed.
