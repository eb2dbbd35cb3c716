(* SnapshotProps.v: properties C23, C24 and C58. *)
From Verif Require Import BaseLemmas VarintProofs SnapshotSections SnapshotSpec SnapshotProofs.

Lemma custom_name name content bs : name <> [] -> len name < 128 ->
  bs = 0 :: put_uvarint_bytes (1 + len name + len content) ++ [len name] ++ name ++ content ->
  1 + len name + len content < 2 ^ 32 -> is_custom_section name content bs.
Proof.
  intros HN HL -> HB. pose proof (len_nonneg name). pose proof (len_nonneg content).
  exists [len name]. split.
  - rewrite <- put_small by lia. apply wasm_u32_put. assert (128 < 2 ^ 32) by (vm_compute; reflexivity). lia.
  - exists (put_uvarint_bytes (1 + len name + len content)). split; [|reflexivity].
    replace (len ([len name] ++ name ++ content)) with (1 + len name + len content).
    + apply wasm_u32_put. lia.
    + rewrite !len_app, len_cons, len_nil. lia.
Qed.

(* C23: for every snapshot state with a non-negative trap and result and at
   most MaxBreakpoints breakpoints, the section written is a custom section
   named gate.snapshot, and the reader, given its content followed by anything,
   returns the same flags, trap, result, monotonic time and breakpoints and
   stops exactly at the end of the section. *)
Theorem snapshot_section_roundtrip : forall s,
  snap_ok s -> 0 <= Trap s -> 0 <= Result s -> len (Breakpoints s) <= 100 ->
  exists bs content,
    makeSnapshotSection s = Ok bs /\
    is_custom_section (str "gate.snapshot") content bs /\
    forall rest, ReadSnapshotSection (content ++ rest) = Ok (s, length content, rest).
Proof.
  intros s HS T0 R0 HN. pose proof HS as (HF & HT & HR & HM & HB).
  assert (A31 : 2 ^ 31 < 2 ^ 32) by (vm_compute; reflexivity). assert (A32 : 2 ^ 32 < 2 ^ 64) by (vm_compute; reflexivity).
  assert (A28 : 100 < 2 ^ 28) by (vm_compute; reflexivity).
  eexists _, (snapcontent s). split; [apply makeSnapshot_ok; [exact HS|lia|]|split].
  - rewrite !u64_id by lia. pose proof (put_len32 (Trap s) ltac:(lia)). pose proof (put_len32 (Result s) ltac:(lia)).
    pose proof (put_len64 (Flags s) HF). pose proof (put_len64 (MonotonicTime s) HM). lia.
  - apply custom_name; [discriminate|vm_compute; reflexivity|reflexivity|].
    unfold snapcontent. rewrite !len_app. change (len (str "gate.snapshot")) with 13.
    pose proof (put_len64 (Flags s) HF). pose proof (put_len64 (MonotonicTime s) HM). pose proof (put_len64 _ (u64_bound (Trap s))).
    pose proof (put_len64 _ (u64_bound (Result s))). pose proof (len_nonneg (Breakpoints s)).
    pose proof (put_len32 (len (Breakpoints s)) ltac:(lia)). pose proof (flat_put_len _ HB).
    unfold len in *. assert (2000 < 2 ^ 32) by (vm_compute; reflexivity). cbn [List.length]. lia.
  - intros rest. apply ReadSnapshot_ok; assumption.
Qed.
Print Assumptions snapshot_section_roundtrip.

Example snapshot_section_ex :
  let s := {| Flags := 3; Trap := 2; Result := 300; MonotonicTime := 2 ^ 64 - 1; Breakpoints := [2 ^ 63; 127] |} in
  snap_ok s /\ len (Breakpoints s) <= 100 /\
  exists bs, makeSnapshotSection s = Ok bs /\ len bs = 43 /\
    ReadSnapshotSection (skipn 16 bs) = Ok (s, 27%nat, []).
Proof.
  cbv zeta. split; [|split; [vm_compute; discriminate|]].
  - unfold snap_ok. cbn. repeat split; try lia. repeat (constructor; [lia|]). constructor.
  - eexists. split; [vm_compute; reflexivity|]. split; vm_compute; reflexivity.
Qed.

(* C23, refuted part: the result is an int32, and for every negative result
   (with flags below 2^35) the section is written with a sign-extended ten byte
   encoding that the reader rejects. *)
Theorem snapshot_section_negative_result_refuted : forall s,
  snap_ok s -> Result s < 0 -> 0 <= Trap s -> Flags s < 2 ^ 35 -> len (Breakpoints s) <= 100 ->
  exists bs content,
    makeSnapshotSection s = Ok bs /\
    is_custom_section (str "gate.snapshot") content bs /\
    forall rest, ReadSnapshotSection (content ++ rest) = Err.
Proof.
  intros s HS R0 T0 F0 HN. pose proof HS as (HF & HT & HR & HM & HB).
  assert (A31 : 2 ^ 31 < 2 ^ 32) by (vm_compute; reflexivity). assert (A32 : 2 ^ 32 < 2 ^ 64) by (vm_compute; reflexivity).
  assert (A28 : 100 < 2 ^ 28) by (vm_compute; reflexivity).
  eexists _, (snapcontent s). split; [apply makeSnapshot_ok; [exact HS|lia|]|split].
  - rewrite (u64_id (Trap s)) by lia. pose proof (put_len32 (Trap s) ltac:(lia)). pose proof (put_len64 _ (u64_bound (Result s))).
    assert (2 ^ 35 = 2 ^ (7 * Z.of_nat 5)) by reflexivity. pose proof (put_len_n (Flags s) 5 ltac:(lia) ltac:(lia)).
    pose proof (put_len64 (MonotonicTime s) HM). lia.
  - apply custom_name; [discriminate|vm_compute; reflexivity|reflexivity|].
    unfold snapcontent. rewrite !len_app. change (len (str "gate.snapshot")) with 13.
    pose proof (put_len64 (Flags s) HF). pose proof (put_len64 (MonotonicTime s) HM). pose proof (put_len64 _ (u64_bound (Trap s))).
    pose proof (put_len64 _ (u64_bound (Result s))). pose proof (len_nonneg (Breakpoints s)).
    pose proof (put_len32 (len (Breakpoints s)) ltac:(lia)). pose proof (flat_put_len _ HB).
    unfold len in *. assert (2000 < 2 ^ 32) by (vm_compute; reflexivity). cbn [List.length]. lia.
  - intros rest. now apply ReadSnapshot_negative.
Qed.
Print Assumptions snapshot_section_negative_result_refuted.

Example snapshot_section_negative_ex :
  let s := {| Flags := 0; Trap := 0; Result := -1; MonotonicTime := 0; Breakpoints := [] |} in
  snap_ok s /\ exists bs, makeSnapshotSection s = Ok bs /\ ReadSnapshotSection (skipn 16 bs) = Err.
Proof.
  cbv zeta. split; [|eexists; split; [vm_compute; reflexivity|vm_compute; reflexivity]].
  unfold snap_ok. cbn. repeat split; try lia. constructor.
Qed.

(* C23: on an arbitrary (untrusted) section the snapshot reader never crashes;
   what it accepts is within the announced widths, has at most 100 breakpoints,
   and was read from a prefix of the input. *)
Theorem snapshot_reader_untrusted : forall r, is_bytes r ->
  ReadSnapshotSection r = Err \/
  exists s n, ReadSnapshotSection r = Ok (s, n, skipn n r) /\ (n <= length r)%nat /\
    snap_ok s /\ len (Breakpoints s) <= 100.
Proof.
  intros r H. cut (forall o, ReadSnapshotSection r = o ->
    o = Err \/ exists s n, o = Ok (s, n, skipn n r) /\ (n <= length r)%nat /\ snap_ok s /\ len (Breakpoints s) <= 100); [intros C; now apply C|].
  intros o. unfold ReadSnapshotSection.
  assert (S32 : forall x, - 2 ^ 31 <= s32 x < 2 ^ 31).
  { intros x. unfold s32. pose proof (Z.mod_pos_bound (x + 2 ^ 31) (2 ^ 32) ltac:(lia)). lia. }
  destruct (varuint_total 10 64 r H) as [E|(x1 & n1 & E & H1 & L1 & _)]; unfold Varuint64 at 1; rewrite E; cbn [bind]; [intros <-; now left|].
  assert (B1 : is_bytes (skipn n1 r)) by now apply Forall_skipn.
  destruct (varuint_total 10 64 _ B1) as [E2|(x2 & n2 & E2 & H2 & L2 & _)]; unfold Varuint64 at 1; rewrite E2; cbn [bind]; [intros <-; now left|].
  rewrite skipn_skipn in *. rewrite skipn_length in L2.
  assert (B2 : is_bytes (skipn (n1 + n2) r)) by now apply Forall_skipn.
  destruct (varuint_total 5 32 _ B2) as [E3|(x3 & n3 & E3 & H3 & L3 & _)]; unfold Varuint32 at 1; rewrite E3; cbn [bind]; [intros <-; now left|].
  rewrite skipn_skipn in *. rewrite skipn_length in L3.
  assert (B3 : is_bytes (skipn (n1 + n2 + n3) r)) by now apply Forall_skipn.
  destruct (varuint_total 5 32 _ B3) as [E4|(x4 & n4 & E4 & H4 & L4 & _)]; unfold Varuint32 at 1; rewrite E4; cbn [bind]; [intros <-; now left|].
  rewrite skipn_skipn in *. rewrite skipn_length in L4.
  assert (B4 : is_bytes (skipn (n1 + n2 + n3 + n4) r)) by now apply Forall_skipn.
  destruct (varuint_total 10 64 _ B4) as [E5|(x5 & n5 & E5 & H5 & L5 & _)]; unfold Varuint64 at 1; rewrite E5; cbn [bind]; [intros <-; now left|].
  rewrite skipn_skipn in *. rewrite skipn_length in L5.
  assert (B5 : is_bytes (skipn (n1 + n2 + n3 + n4 + n5) r)) by now apply Forall_skipn.
  destruct (varuint_total 5 32 _ B5) as [E6|(x6 & n6 & E6 & H6 & L6 & _)]; unfold Varuint32 at 1; rewrite E6; cbn [bind]; [intros <-; now left|].
  rewrite skipn_skipn in *. rewrite skipn_length in L6.
  unfold MaxBreakpoints. destruct (Z.gtb_spec x6 100); [intros <-; now left|].
  assert (B6 : is_bytes (skipn (n1 + n2 + n3 + n4 + n5 + n6) r)) by now apply Forall_skipn.
  destruct (readVaruint64s_total (Z.to_nat x6) _ B6) as [E7|(l & n7 & E7 & Hl & HF & L7)]; rewrite E7; cbn [bind]; [intros <-; now left|].
  rewrite skipn_skipn in *. rewrite skipn_length in L7.
  intros <-. right. do 2 eexists. split; [reflexivity|]. split; [lia|]. unfold snap_ok. cbn [Flags Trap Result MonotonicTime Breakpoints].
  pose proof (S32 x3). pose proof (S32 x4). unfold len. repeat split; try lia; assumption.
Qed.
Print Assumptions snapshot_reader_untrusted.

Example snapshot_reader_untrusted_ex :
  ReadSnapshotSection [0; 0; 0; 255; 255; 255; 255; 15; 0; 101] = Err /\
  ReadSnapshotSection [7; 0; 0; 255; 255; 255; 255; 15; 0; 1; 5; 9] =
    Ok ({| Flags := 0; Trap := 0; Result := -1; MonotonicTime := 0; Breakpoints := [5] |}, 11%nat, [9]) /\
  ReadSnapshotSection [0; 0] = Err.
Proof. repeat split; vm_compute; reflexivity. Qed.

Lemma make_app {A} (a b c : list A) : (a ++ b) ++ c = a ++ b ++ c.
Proof. symmetry. apply app_assoc. Qed.

(* C23: for every non-empty buffer set within the limits of the format, the
   header followed by the data is a custom section named gate.buffer of exactly
   the announced size, and loading its content yields the same input, output,
   service names and service buffers. *)
Theorem buffer_section_roundtrip : forall bs,
  buffers_ok bs -> (Services bs <> [] \/ Input bs <> [] \/ Output bs <> []) ->
  exists header size content,
    makeBufferSectionHeader bs = Ok (header, size) /\
    size = len (header ++ bufferSectionData bs) /\
    is_custom_section (str "gate.buffer") content (header ++ bufferSectionData bs) /\
    exists n, loadBufferSection content = Ok (bs, n).
Proof.
  intros bs HB HN. destruct (makeBuffer_ok bs HB HN) as (h & Eh & HR & E).
  exists h, (len h + len (bufferSectionData bs)), (bufcontent bs ++ bufferSectionData bs).
  split; [exact E|]. split; [now rewrite len_app|]. split.
  - apply custom_name; [discriminate|vm_compute; reflexivity| |].
    + rewrite Eh. cbn [app]. rewrite len_app, <- !make_app.
      replace (1 + len (str "gate.buffer") + (len (bufcontent bs) + len (bufferSectionData bs)))
        with (1 + len (str SectionBuffer) + len (bufcontent bs) + len (bufferSectionData bs)) by (unfold SectionBuffer; lia).
      repeat rewrite <- app_assoc. reflexivity.
    + rewrite len_app. unfold SectionBuffer in HR. lia.
  - unfold loadBufferSection.
    destruct (ReadBuffer_ok bs (bufferSectionData bs) (len (bufcontent bs ++ bufferSectionData bs)) HB) as (hd & E1 & E2 & E3 & E4 & E5 & E6).
    { rewrite len_app. unfold len. lia. }
    rewrite E1. cbn [snd]. rewrite E3. assert (EN : Z.to_nat (len (bufferSectionData bs)) = length (bufferSectionData bs)) by (unfold len; apply Nat2Z.id).
    rewrite EN, Nat.ltb_irrefl, firstn_all. rewrite fill_ok by assumption. eauto.
Qed.
Print Assumptions buffer_section_roundtrip.

Example buffer_section_ex :
  let bs := {| Input := [1; 2; 3]; Output := [4]; Services := [{| sname := [97]; sbuffer := [9; 9] |}; {| sname := [98; 99]; sbuffer := [] |}] |} in
  buffers_ok bs /\ exists h, makeBufferSectionHeader bs = Ok (h, 30) /\ loadBufferSection (skipn 14 (h ++ bufferSectionData bs)) = Ok (bs, 10%nat).
Proof.
  cbv zeta. split; [|eexists; split; [vm_compute; reflexivity|vm_compute; reflexivity]].
  unfold buffers_ok. cbn [Input Output Services]. unfold len. cbn [length fold_right sname sbuffer].
  repeat split; try lia; try (repeat (constructor; [unfold is_byte; lia|]); constructor).
  2: apply Forall_cons; [|constructor]. all: cbn [sname sbuffer length].
  - split; [repeat (constructor; [unfold is_byte; lia|]); constructor|]. split; [repeat (constructor; [unfold is_byte; lia|]); constructor|lia].
  - split; [repeat (constructor; [unfold is_byte; lia|]); constructor|]. split; [constructor|lia].
Qed.

(* C23: an arbitrary (untrusted) buffer header is never misread: the reader
   does not crash, accepted service names have 1 to 127 bytes, and the header
   together with the data it announces fits in the section. *)
Theorem buffer_reader_untrusted : forall r L, is_bytes r ->
  snd (ReadBufferSectionHeader r L) = Err \/
  exists h, snd (ReadBufferSectionHeader r L) = Ok (h, skipn (readLen h) r) /\
    (readLen h <= length r)%nat /\ Z.of_nat (readLen h) + dataSize h <= L /\
    dataSize h = inputSize h + outputSize h + fold_right (fun p a => snd p + a) 0 (serviceSizes h) /\
    0 <= inputSize h /\ 0 <= outputSize h /\
    Forall (fun p => 1 <= len (fst p) <= 127 /\ 0 <= snd p < 2 ^ 32) (serviceSizes h).
Proof.
  intros r L H. cut (forall o, snd (ReadBufferSectionHeader r L) = o ->
    o = Err \/ exists h, o = Ok (h, skipn (readLen h) r) /\
    (readLen h <= length r)%nat /\ Z.of_nat (readLen h) + dataSize h <= L /\
    dataSize h = inputSize h + outputSize h + fold_right (fun p a => snd p + a) 0 (serviceSizes h) /\
    0 <= inputSize h /\ 0 <= outputSize h /\
    Forall (fun p => 1 <= len (fst p) <= 127 /\ 0 <= snd p < 2 ^ 32) (serviceSizes h)); [intros C; now apply C|].
  intros o. unfold ReadBufferSectionHeader.
  destruct (varuint_total 5 32 r H) as [E|(x1 & n1 & E & H1 & L1 & _)]; unfold Varuint32 at 1; rewrite E; cbn [bind snd]; [intros <-; now left|].
  assert (B1 : is_bytes (skipn n1 r)) by now apply Forall_skipn.
  destruct (varuint_total 5 32 _ B1) as [E2|(x2 & n2 & E2 & H2 & L2 & _)]; unfold Varuint32 at 1; rewrite E2; cbn [bind snd]; [intros <-; now left|].
  rewrite skipn_skipn in *. rewrite skipn_length in L2.
  assert (B2 : is_bytes (skipn (n1 + n2) r)) by now apply Forall_skipn.
  destruct (varuint_total 5 32 _ B2) as [E3|(x3 & n3 & E3 & H3 & L3 & _)]; unfold Varuint32 at 1; rewrite E3; cbn [bind snd]; [intros <-; now left|].
  rewrite skipn_skipn in *. rewrite skipn_length in L3.
  assert (B3 : is_bytes (skipn (n1 + n2 + n3) r)) by now apply Forall_skipn.
  destruct (readServices_total (S (length (skipn (n1 + n2 + n3) r))) x3 _ B3) as [E4|(l & m & E4 & Hl & Hm & Hlm & HF)]; rewrite E4; cbn [snd]; [intros <-; now left|].
  rewrite skipn_skipn in *. rewrite skipn_length in Hm. cbn zeta.
  match goal with |- context [if ?c >? L then _ else _] => destruct (Z.gtb_spec c L) end; [cbn [snd]; intros <-; now left|].
  cbn [snd]. intros <-. right. match goal with |- exists h, Ok (?x, _) = _ /\ _ => exists x end. split; [cbn [readLen]; reflexivity|]. cbn [readLen dataSize inputSize outputSize serviceSizes].
  repeat split; try lia. exact HF.
Qed.
Print Assumptions buffer_reader_untrusted.

Example buffer_reader_untrusted_ex :
  snd (ReadBufferSectionHeader [0; 0; 1; 0; 0] 100) = Err /\ snd (ReadBufferSectionHeader [9; 0; 0] 11) = Err /\
  exists h, snd (ReadBufferSectionHeader [9; 0; 1; 1; 97; 2; 77] 17) = Ok (h, [77]) /\ serviceSizes h = [([97], 2)].
Proof. repeat split; try (vm_compute; reflexivity). eexists. split; vm_compute; reflexivity. Qed.

(* C23, refuted part: "TODO: limit sizes and count": memory is requested for
   the announced number of services before anything is checked, so a section of
   seven bytes makes the reader request an array of 2^32-1 services. *)
Theorem buffer_reader_allocation_refuted : exists r, length r = 7%nat /\ is_bytes r /\
  exists n, In n (fst (ReadBufferSectionHeader r 7)) /\ n = 2 ^ 32 - 1.
Proof.
  exists [0; 0; 255; 255; 255; 255; 15]. split; [reflexivity|]. split.
  - unfold is_bytes, is_byte. repeat (constructor; [lia|]). constructor.
  - exists (2 ^ 32 - 1). split; [vm_compute; now left|reflexivity].
Qed.
Print Assumptions buffer_reader_allocation_refuted.

(* C58 *)
Lemma varuint_nopanic k : forall bits r, varuint k bits r <> Panic.
Proof.
  induction k; intros bits r; [now destruct r|]. destruct r as [|b r]; [discriminate|]. cbn [varuint].
  destruct (b <? 128); [destruct (b <? 2 ^ bits); discriminate|].
  specialize (IHk (bits - 7) r). destruct (varuint k (bits - 7) r) as [[[? ?] ?]| |]; cbn [bind]; congruence.
Qed.

Lemma varuint_prefix k : forall bits a x n r t, varuint k bits a = Ok (x, n, r) -> varuint k bits (a ++ t) = Ok (x, n, r ++ t).
Proof.
  induction k; intros bits a x n r t E; [now destruct a|]. destruct a as [|b a]; [discriminate|].
  cbn [varuint app] in *. destruct (b <? 128).
  - destruct (b <? 2 ^ bits); [|discriminate]. congruence.
  - destruct (varuint k (bits - 7) a) as [[[x' n'] r']| |] eqn:E2; cbn [bind] in E; try discriminate.
    rewrite (IHk _ _ _ _ _ t E2). cbn [bind]. inversion E; subst. reflexivity.
Qed.

Lemma Varuint32_put_prefix a u x t y m r : 0 <= x < 2 ^ 32 -> put_uvarint_bytes x ++ t = a ++ u ->
  Varuint32 a = Ok (y, m, r) -> y = x /\ t = r ++ u.
Proof.
  intros H EA E. unfold Varuint32 in E. apply varuint_prefix with (t := u) in E. rewrite <- EA in E.
  pose proof (Varuint32_put x t H) as E'. unfold Varuint32 in E'. rewrite E' in E.
  split; congruence.
Qed.

Lemma readServices_nopanic fuel : forall count r, readServices fuel count r <> Panic.
Proof.
  induction fuel; intros count r; cbn [readServices]; destruct (count <=? 0); try discriminate.
  destruct r as [|b r]; [discriminate|]. destruct (_ || _); [discriminate|]. destruct (Nat.ltb _ _); [discriminate|].
  pose proof (varuint_nopanic 5 32 (skipn (Z.to_nat b) r)) as NP. unfold Varuint32.
  destruct (varuint 5 32 (skipn (Z.to_nat b) r)) as [[[x n] r']| |]; cbn [bind]; try congruence.
  specialize (IHfuel (count - 1) r'). destruct (readServices fuel (count - 1) r') as [[[? ?] ?]| |]; cbn [bind]; congruence.
Qed.

Lemma readServices_sum_nonneg fuel : forall count r l n r', is_bytes r -> readServices fuel count r = Ok (l, n, r') ->
  0 <= fold_right (fun p a => snd p + a) 0 l.
Proof.
  intros count r l n r' H E. destruct (readServices_total fuel count r H) as [E'|(l' & n' & E' & _ & _ & _ & HF)]; rewrite E in E'; [discriminate|].
  assert (l = l') by congruence. subst l'. clear E E'. induction HF as [|p l [_ Hp] _ IH]; cbn [fold_right]; [lia|]. apply Z.add_nonneg_nonneg; [apply Hp|exact IH].
Qed.

(* What LoadBuffers does when the section starts with its frame. *)
Lemma load_framed tot rest0 X u : 0 <= tot < 2 ^ 32 -> is_bytes X ->
  put_uvarint_bytes tot ++ [len (str SectionBuffer)] ++ str SectionBuffer ++ rest0 = X ++ u ->
  forall L o, snd (ReadBufferSectionHeader (0 :: X) L) = o ->
  (o = Err \/ exists h r, o = Ok (h, r) /\ inputSize h = 0 /\ outputSize h = tot /\ tot <= dataSize h) /\
  ((length X <= 100)%nat -> o = Err).
Proof.
  intros HT HX EX L o. unfold ReadBufferSectionHeader.
  change (Varuint32 (0 :: X)) with (@Ok (Z * nat * bytes) (0, 1%nat, X)). cbn [bind].
  pose proof (varuint_nopanic 5 32 X) as NP. unfold Varuint32 at 1.
  destruct (varuint_total 5 32 X HX) as [E|(x & n & E & _ & HL & _)]; rewrite E; cbn [bind snd]; [intros <-; auto|].
  destruct (Varuint32_put_prefix X u tot _ _ _ _ HT EX E) as [-> E2].
  set (Y := skipn n X) in *. assert (HY : is_bytes Y) by (now apply Forall_skipn).
  assert (LY : (length Y < length X)%nat) by (unfold Y; rewrite skipn_length; lia).
  unfold Varuint32 at 1.
  destruct (varuint_total 5 32 Y HY) as [E3|(x3 & n3 & E3 & _ & HL3 & _)]; rewrite E3; cbn [bind snd]; [intros <-; auto|].
  change ([len (str SectionBuffer)] ++ str SectionBuffer ++ rest0) with (put_uvarint_bytes 11 ++ str SectionBuffer ++ rest0) in E2.
  destruct (Varuint32_put_prefix Y u 11 _ _ _ _ ltac:(lia) E2 E3) as [-> E4].
  set (W := skipn n3 Y) in *. assert (HW : is_bytes W) by (now apply Forall_skipn).
  destruct (readServices (S (length W)) 11 W) as [[[l m] r]| |] eqn:E5; cbn [snd]; [|intros <-; auto|exfalso; now apply readServices_nopanic in E5].
  cbn zeta. pose proof (readServices_sum_nonneg _ _ _ _ _ _ HW E5) as HS.
  assert (HE : (length X <= 100)%nat -> False).
  { intros H100. cbn [readServices] in E5. change (11 <=? 0) with false in E5. cbn iota in E5.
    destruct W as [|b W'] eqn:EW; [discriminate|].
    assert (b = 103) by (change (str SectionBuffer) with (103 :: [97; 116; 101; 46; 98; 117; 102; 102; 101; 114]) in E4; cbn [app] in E4; congruence).
    subst b. change ((103 =? 0) || (103 >? maxServiceNameLen)) with false in E5. cbn iota in E5.
    destruct (Nat.ltb_spec (length W') (Z.to_nat 103)) as [|HG]; [discriminate|].
    assert (LW : (length (103%Z :: W') <= length Y)%nat) by (rewrite <- EW; unfold W; rewrite skipn_length; lia).
    cbn [List.length] in LW. change (Z.to_nat 103) with 103%nat in HG. lia. }
  match goal with |- context [if ?c >? L then _ else _] => destruct (Z.gtb_spec c L) end; cbn [snd]; intros <-; [auto|].
  split; [right; do 2 eexists; split; [reflexivity|]; cbn [inputSize outputSize dataSize]; repeat split; lia|].
  intros H100. destruct (HE H100).
Qed.

Lemma put_bytes32 x : 0 <= x < 2 ^ 32 -> is_bytes (put_uvarint_bytes x).
Proof. intros H. apply put_bytes64. assert (2 ^ 32 < 2 ^ 64) by (vm_compute; reflexivity). lia. Qed.

Lemma bufcontent_bytes bs : buffers_ok bs -> is_bytes (bufcontent bs).
Proof.
  intros (HI & HO & LI & LO & LS & HS & HT). pose proof (len_nonneg (Input bs)). pose proof (len_nonneg (Output bs)). pose proof (len_nonneg (Services bs)).
  assert (A : 2 ^ 31 < 2 ^ 32) by (vm_compute; reflexivity).
  unfold bufcontent. apply is_bytes_app. split; [apply put_bytes32; lia|]. apply is_bytes_app. split; [apply put_bytes32; lia|].
  apply is_bytes_app. split; [apply put_bytes32; lia|]. clear LS HT. induction HS as [|s l (K1 & K2 & K3 & K4) _ IH]; [constructor|].
  cbn [flat_map]. apply is_bytes_app. split; [|exact (IH (len_nonneg l))]. unfold svcbytes. pose proof (len_nonneg (sbuffer s)).
  constructor; [unfold is_byte; lia|]. apply is_bytes_app. split; [exact K1|apply put_bytes32; lia].
Qed.

(* C58, refuted: a program whose module has a non-empty buffer section never
   gets its buffers back from LoadBuffers, whatever header length its manifest
   records, because the section range starts at the section frame and not at
   the header: the result is never the original buffers, and when the recorded
   header length is at most 100 bytes loading fails (and with it the start-up
   of a server that has such a program stored). *)
Theorem load_buffers_refuted : forall bs header size pre post hl,
  buffers_ok bs -> (Services bs <> [] \/ Input bs <> [] \/ Output bs <> []) ->
  makeBufferSectionHeader bs = Ok (header, size) -> is_bytes post ->
  let module := pre ++ header ++ bufferSectionData bs ++ post in
  LoadBuffers module (length pre) size hl <> Ok bs /\
  ((hl <= 100)%nat -> LoadBuffers module (length pre) size hl = Err).
Proof.
  intros bs header size pre post hl HB HN E HPost module.
  destruct (makeBuffer_ok bs HB HN) as (h & Eh & HR & E'). rewrite E' in E. assert (h = header) by congruence. subst header.
  assert (ES : size = len h + len (bufferSectionData bs)) by congruence. subst size. clear E E'.
  set (tot := 1 + len (str SectionBuffer) + len (bufcontent bs) + len (bufferSectionData bs)) in *.
  assert (HD : is_bytes (bufferSectionData bs)).
  { destruct HB as (HI & HO & _ & _ & _ & HS & _). unfold bufferSectionData. apply is_bytes_app. split; [exact HI|].
    apply is_bytes_app. split; [exact HO|]. clear HN. induction HS as [|s l (_ & H2 & _) _ IH]; [constructor|]. cbn [flat_map]. apply is_bytes_app. split; [exact H2|exact IH]. }
  unfold LoadBuffers. destruct (Z.eqb_spec (len h + len (bufferSectionData bs)) 0) as [Z0|_].
  { exfalso. rewrite Eh, len_cons in Z0. pose proof (len_nonneg (bufferSectionData bs)).
    match type of Z0 with 1 + len ?l + _ = _ => pose proof (len_nonneg l) end. lia. }
  destruct (readAt module (length pre) hl) as [hdr| |] eqn:ER; cbn [bind]; try (split; [discriminate|auto]).
  2:{ exfalso. unfold readAt in ER. destruct (Nat.leb _ _); discriminate. }
  unfold readAt in ER. destruct (Nat.leb_spec (length pre + hl) (length module)) as [HLm|]; [|discriminate].
  assert (ESk : skipn (length pre) module = h ++ bufferSectionData bs ++ post) by (unfold module; now rewrite skipn_app_exact).
  rewrite ESk in ER. rewrite Eh in ER. cbn [app] in ER.
  destruct hl as [|hl]; [cbn [firstn] in ER; assert (hdr = []) by congruence; subst hdr; cbn; split; [discriminate|auto]|].
  cbn [firstn] in ER.
  match type of ER with Ok (0 :: firstn hl ?l) = _ => set (S0 := l) in ER; assert (ES0 : S0 = put_uvarint_bytes tot ++ [len (str SectionBuffer)] ++ str SectionBuffer ++ (bufcontent bs ++ bufferSectionData bs ++ post)) end.
  { unfold S0. repeat rewrite <- app_assoc. reflexivity. }
  assert (EH : hdr = 0 :: firstn hl S0) by congruence. subst hdr. clear ER.
  assert (HX : is_bytes (firstn hl S0)).
  { apply Forall_firstn. rewrite ES0. apply is_bytes_app. split; [now apply put_bytes32|]. apply is_bytes_app.
    split; [repeat (constructor; [unfold is_byte; vm_compute; split; [discriminate|reflexivity]|]); constructor|].
    apply is_bytes_app. split; [change (str SectionBuffer) with [103; 97; 116; 101; 46; 98; 117; 102; 102; 101; 114]; repeat (constructor; [unfold is_byte; lia|]); constructor|].
    apply is_bytes_app. split; [now apply bufcontent_bytes|]. apply is_bytes_app. split; assumption. }
  pose proof (load_framed tot _ (firstn hl S0) (skipn hl S0) HR HX ltac:(rewrite firstn_skipn; symmetry; exact ES0)
     (u32 (len h + len (bufferSectionData bs))) _ eq_refl) as [HC H100].
  destruct HC as [HC|(hd & r & HC & HI0 & HO & HDs)]; rewrite HC.
  { split; [discriminate|auto]. }
  split.
  - destruct (readAt module (length pre + readLen hd) (Z.to_nat (dataSize hd))) as [db| |] eqn:ER2; cbn [bind]; try discriminate.
    intros EF. assert (EF2 : fill hd db = bs) by congruence.
    assert (LD : length db = Z.to_nat (dataSize hd)).
    { unfold readAt in ER2. destruct (Nat.leb_spec (length pre + readLen hd + Z.to_nat (dataSize hd)) (length module)); [|discriminate].
      assert (db = firstn (Z.to_nat (dataSize hd)) (skipn (length pre + readLen hd) module)) by congruence. subst db.
      rewrite firstn_length_le; [reflexivity|]. rewrite skipn_length. lia. }
    assert (EO : len (Output bs) = tot).
    { rewrite <- EF2. unfold fill. cbn [Output]. rewrite HI0, HO. cbn [Z.to_nat skipn]. unfold len. rewrite firstn_length_le by lia. lia. }
    assert (len (Output bs) <= len (bufferSectionData bs)).
    { unfold bufferSectionData. rewrite !len_app. pose proof (len_nonneg (Input bs)). pose proof (len_nonneg (flat_map sbuffer (Services bs))). lia. }
    pose proof (len_nonneg (str SectionBuffer)). pose proof (len_nonneg (bufcontent bs)). unfold tot in *. lia.
  - intros Hle. exfalso. rewrite H100 in HC by (rewrite firstn_length; lia). discriminate.
Qed.
Print Assumptions load_buffers_refuted.

Example load_buffers_ex :
  let bs := {| Input := [1; 2; 3]; Output := []; Services := [] |} in
  buffers_ok bs /\ exists h, makeBufferSectionHeader bs = Ok (h, 20) /\ length h = 17%nat /\
  LoadBuffers (repeat 7 9 ++ h ++ bufferSectionData bs) 9 20 17 = Err /\
  LoadBuffers (repeat 7 9 ++ h ++ bufferSectionData bs) 9 20 3 = Err.
Proof.
  cbv zeta. split.
  - unfold buffers_ok, is_bytes, is_byte, len. cbn. repeat split; try lia; repeat (constructor; [lia|]); constructor.
  - eexists; split; [vm_compute; reflexivity|]. repeat split; vm_compute; reflexivity.
Qed.

(* C24: for every memory size (a uint32) and every limit below 2^48 (or
   negative: no limit), the memory section of a snapshot declares one memory
   with the instance's current size and the program's limit in pages. *)
Theorem memory_section_denotes : forall size limit, 0 <= size < 2 ^ 32 -> limit < 2 ^ 48 ->
  exists bs limits, makeMemorySection size limit = Ok bs /\
    is_section 5 (1 :: limits) bs /\
    is_limits (size / 65536) (if limit <? 0 then None else Some (limit / 65536)) limits.
Proof.
  intros sz lim Hs Hl. rewrite makeMemory_ok by assumption.
  assert (Hp : 0 <= sz / 2 ^ 16 < 2 ^ 32).
  { split; [apply Z.div_pos; lia|]. apply Z.div_lt_upper_bound; lia. }
  pose proof (put_len32 _ Hp) as HL. change 65536 with (2 ^ 16).
  assert (A : 128 < 2 ^ 32) by (vm_compute; reflexivity).
  destruct (Z.geb_spec lim 0) as [G|G]; destruct (Z.ltb_spec lim 0) as [G'|G']; try lia.
  - assert (Hq : 0 <= lim / 2 ^ 16 < 2 ^ 32).
    { split; [apply Z.div_pos; lia|]. apply Z.div_lt_upper_bound; [lia|]. change (2 ^ 16 * 2 ^ 32) with (2 ^ 48). lia. }
    pose proof (put_len32 _ Hq) as HLq. cbn zeta.
    eexists. exists (1 :: put_uvarint_bytes (sz / 2 ^ 16) ++ put_uvarint_bytes (lim / 2 ^ 16)). split; [reflexivity|]. split.
    + exists [2 + len (put_uvarint_bytes (sz / 2 ^ 16)) + len (put_uvarint_bytes (lim / 2 ^ 16))]. split; [|reflexivity].
      rewrite !len_cons, len_app. replace (1 + (1 + (len (put_uvarint_bytes (sz / 2 ^ 16)) + len (put_uvarint_bytes (lim / 2 ^ 16)))))
        with (2 + len (put_uvarint_bytes (sz / 2 ^ 16)) + len (put_uvarint_bytes (lim / 2 ^ 16))) by lia.
      rewrite <- put_small by (unfold len; lia). apply wasm_u32_put. unfold len. lia.
    + do 2 eexists. split; [apply wasm_u32_put; exact Hp|]. split; [apply wasm_u32_put; exact Hq|reflexivity].
  - cbn zeta. eexists. exists (0 :: put_uvarint_bytes (sz / 2 ^ 16)). split; [reflexivity|]. split.
    + exists [2 + len (put_uvarint_bytes (sz / 2 ^ 16))]. split; [|reflexivity].
      rewrite !len_cons. replace (1 + (1 + len (put_uvarint_bytes (sz / 2 ^ 16)))) with (2 + len (put_uvarint_bytes (sz / 2 ^ 16))) by lia.
      rewrite <- put_small by (unfold len; lia). apply wasm_u32_put. unfold len. lia.
    + eexists. split; [apply wasm_u32_put; exact Hp|reflexivity].
Qed.
Print Assumptions memory_section_denotes.

Example memory_section_ex :
  makeMemorySection (300 * 65536) (2 ^ 32) = Ok [5; 7; 1; 1; 172; 2; 128; 128; 4] /\ makeMemorySection 0 (-1) = Ok [5; 3; 1; 0; 0].
Proof. split; vm_compute; reflexivity. Qed.

(* C24: for every non-empty list of fewer than 2^28 global types and every list
   of 64-bit cells in the instance's globals area, the global section of the
   snapshot is a vector of globals with those types and mutability whose
   constant initializers evaluate to the cells' values. *)
Theorem global_section_denotes : forall types cells z,
  types <> [] -> length cells = length types -> Forall (fun c => 0 <= c < 2 ^ 64) cells -> len types < 2 ^ 28 ->
  exists bs count items, makeGlobalSection types (flat_map (le 8) cells ++ z) = Ok bs /\
    wasm_u32 (len types) count /\ are_globals types cells items /\ is_section 6 (count ++ items) bs.
Proof.
  intros ts cs z HN E H HL. destruct (makeGlobal_ok ts cs z HN E H HL) as [HP EM].
  do 3 eexists. split; [exact EM|]. assert (A : 2 ^ 28 < 2 ^ 32) by (vm_compute; reflexivity).
  pose proof (len_nonneg ts). split; [apply wasm_u32_put; lia|]. split; [apply globals_bytes_ok; assumption|].
  eexists. split; [|reflexivity]. apply wasm_u32_put. split; [apply len_nonneg|exact HP].
Qed.
Print Assumptions global_section_denotes.

Example global_section_ex :
  makeGlobalSection [{| gtype := I32; gmutable := true |}; {| gtype := I64; gmutable := false |}; {| gtype := F32; gmutable := true |}]
    (flat_map (le 8) [2 ^ 32 - 64; 2 ^ 63; 1065353216]) =
  Ok [6; 28; 3; 127; 1; 65; 64; 11; 126; 0; 66; 128; 128; 128; 128; 128; 128; 128; 128; 128; 127; 11; 125; 1; 67; 0; 0; 128; 63; 11].
Proof. vm_compute. reflexivity. Qed.

(* C24: without globals no section is written. *)
Theorem global_section_empty : forall z, makeGlobalSection [] z = Ok [].
Proof. reflexivity. Qed.
Print Assumptions global_section_empty.

(* C24: the data section header followed by the instance's memory is a data
   section with one segment that puts the memory at address 0 of memory 0. *)
Theorem data_section_denotes : forall memory, 10 + len memory < 2 ^ 32 ->
  exists header size, makeDataSectionHeader (len memory) = Ok header /\ wasm_u32 (len memory) size /\
    is_section 11 ([1] ++ [0] ++ [65; 0; 11] ++ size ++ memory) (header ++ memory).
Proof.
  intros m H. pose proof (len_nonneg m) as H0. rewrite makeData_ok by lia. do 2 eexists. split; [reflexivity|].
  assert (HW : wasm_u32 (len m) (put_uvarint_bytes (len m))) by (apply wasm_u32_put; lia).
  split; [exact HW|]. eexists. split.
  2:{ cbn [app]. rewrite <- !app_assoc. cbn [app]. reflexivity. }
  pose proof (put_len32 (len m) ltac:(lia)). 
  replace (len ([1] ++ [0] ++ [65; 0; 11] ++ put_uvarint_bytes (len m) ++ m)) with (5 + len (put_uvarint_bytes (len m)) + len m).
  - apply wasm_u32_put. unfold len in *. lia.
  - rewrite !len_app, !len_cons, len_nil. lia.
Qed.
Print Assumptions data_section_denotes.

Example data_section_ex : makeDataSectionHeader 3 = Ok [11; 9; 1; 0; 65; 0; 11; 3].
Proof. vm_compute. reflexivity. Qed.

(* C24: the stack section header followed by the stack is a custom section
   named gate.stack whose content is the stack, and the wrapper frame followed
   by an export section is a custom section named gate.export whose content is
   that section. *)
Theorem stack_section_denotes : forall stack, 11 + len stack < 2 ^ 32 ->
  exists header, makeStackSectionHeader (len stack) = Ok header /\ is_custom_section (str "gate.stack") stack (header ++ stack).
Proof.
  intros st H. pose proof (len_nonneg st) as H0. eexists. split; [apply makeStack_ok; [lia|exact H]|].
  apply custom_name; [discriminate|vm_compute; reflexivity| |exact H]. cbn [app]. now rewrite <- !app_assoc.
Qed.
Print Assumptions stack_section_denotes.

Theorem export_wrap_denotes : forall exports, 12 + len exports < 2 ^ 32 ->
  exists frame, makeExportSectionWrapFrame (len exports) = Ok frame /\ is_custom_section (str "gate.export") exports (frame ++ exports).
Proof.
  intros ex H. pose proof (len_nonneg ex) as H0. eexists. split; [apply makeExport_ok; [lia|exact H]|].
  apply custom_name; [discriminate|vm_compute; reflexivity| |exact H]. cbn [app]. now rewrite <- !app_assoc.
Qed.
Print Assumptions export_wrap_denotes.

Example stack_export_ex :
  makeStackSectionHeader 300 = Ok ([0; 183; 2; 10] ++ str "gate.stack") /\ makeExportSectionWrapFrame 5 = Ok ([0; 17; 11] ++ str "gate.export").
Proof. split; vm_compute; reflexivity. Qed.
