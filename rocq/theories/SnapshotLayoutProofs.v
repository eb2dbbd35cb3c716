(* Proofs about the layout of snapshot modules. *)
From Verif Require Import SnapshotLayoutSpec SnapshotSpec BaseLemmas ListLemmas SnapshotProofs SnapshotProps StackProofs.
From Verif Require Import SnapshotLayout.

(* ---- generic ---- *)
Definition setr (i : nat) (off n : Z) (dest : list (option range)) :=
  if n =? 0 then dest else set_nth i (Some (Range off n)) dest.

Lemma set_nth_length {A} i (x : A) l : length (set_nth i x l) = length l.
Proof. revert i. induction l as [|h t IH]; intros [|i]; cbn; auto. Qed.

Lemma nth_set_same {A} i (x d : A) l : (i < length l)%nat -> nth i (set_nth i x l) d = x.
Proof. revert i. induction l as [|h t IH]; intros [|i]; cbn; intros; try lia; auto. apply IH. lia. Qed.

Lemma nth_set_other {A} i j (x d : A) l : i <> j -> nth j (set_nth i x l) d = nth j l d.
Proof.
  revert i j. induction l as [|h t IH]; intros [|i] [|j] H; cbn; auto; try lia. all: try now destruct j.
  all: try (apply IH; lia).
Qed.

Lemma setr_length i off n l : length (setr i off n l) = length l.
Proof. unfold setr. destruct (n =? 0); auto using set_nth_length. Qed.

Lemma nth_setr_other i j off n l : i <> j -> nth j (setr i off n l) None = nth j l None.
Proof. unfold setr. destruct (n =? 0); intros; auto using nth_set_other. Qed.

Lemma nth_setr_same i off n l : (i < length l)%nat -> nth i l None = None ->
  nth i (setr i off n l) None = (if n =? 0 then None else Some (Range off n)).
Proof. unfold setr. destruct (n =? 0); intros; auto using nth_set_same. Qed.

Lemma mapOld_ok off dest src i n : length_at src i = Ok n ->
  mapOldSection off dest src i = Ok (off + n, setr i off n dest).
Proof.
  intros H. unfold mapOldSection. rewrite H. cbn. unfold setr. destruct (Z.eqb_spec n 0); auto.
  subst. do 2 f_equal. lia.
Qed.

Lemma mapNew_ok off dest n i : mapNewSection off dest n i = (off + n, setr i off n dest).
Proof. reflexivity. Qed.

Lemma copy_ok file a b c oldOff n : file = a ++ b ++ c -> oldOff = len a -> n = len b ->
  copyFileRange file oldOff n = Ok (b, oldOff + n).
Proof.
  intros -> -> ->. unfold copyFileRange. destruct (Z.eqb_spec (len b) 0) as [E|E].
  - destruct b; [|rewrite len_cons in E; pose proof (len_nonneg b); lia]. rewrite E. f_equal. f_equal. lia.
  - pose proof (len_nonneg a). pose proof (len_nonneg b). pose proof (len_nonneg c).
    rewrite !len_app. destruct (Z.ltb_spec (len b) 0); [lia|]. destruct (Z.ltb_spec (len a) 0); [lia|].
    destruct (Z.ltb_spec (len a + (len b + len c)) (len a + len b)); [lia|]. cbn [orb].
    f_equal. f_equal. unfold len. rewrite !Nat2Z.id. rewrite skipn_app, skipn_all, Nat.sub_diag. cbn [skipn app].
    rewrite firstn_app, firstn_all, Nat.sub_diag. cbn. apply app_nil_r.
Qed.

(* ---- the portable stack is as long as the native one ---- *)
Lemma get_le8_length b v : get_le 0 8 b = Ok v -> (8 <= length b)%nat.
Proof.
  unfold get_le, slice. destruct (Nat.leb_spec (0 + 8) (length b)) as [H|H]; cbn [bind]; intros E.
  - lia.
  - discriminate.
Qed.

Lemma export_loop_length c text : forall fuel native p off rest,
  export_loop fuel c text native = Ok (p, off, rest) -> (length p + length rest = length native)%nat.
Proof.
  induction fuel as [|k IH]; intros native p off rest; cbn [export_loop].
  - destruct native; discriminate.
  - destruct native as [|b t] eqn:EN; [discriminate|]. rewrite <- EN. clear EN b t.
    destruct (get_le 0 8 native) as [v| |] eqn:G; cbn [bind]; try discriminate.
    pose proof (get_le8_length _ _ G) as L.
    destruct (_ >? maxUint32); [discriminate|].
    destruct (find_site _ _ _) as [[ci so]|]; [|discriminate].
    remember (le 8 (Z.lor (u64 (Z.shiftl (u64 so) 32)) (Z.of_nat ci))) as w eqn:W.
    assert (LW : length w = 8%nat) by (subst w; apply length_le). clear W.
    destruct (in_init _ _).
    + intros E. assert (p = w) by congruence. assert (rest = skipn 8 native) by congruence. subst. rewrite skipn_length. lia.
    + destruct (_ || _); [discriminate|].
      destruct ((so - 8 <? 0) || (so - 8 >? len (skipn 8 native))) eqn:B; [discriminate|].
      apply orb_false_iff in B as [B1 B2].
      destruct (export_loop k c text _) as [[[p' o'] r']| |] eqn:R; cbn [bind]; try discriminate.
      intros E. apply IH in R. assert (p = w ++ firstn (Z.to_nat (so - 8)) (skipn 8 native) ++ p') by congruence.
      assert (rest = r') by congruence. subst p rest.
      unfold len in B2. rewrite !app_length, firstn_length.
      rewrite skipn_length in R. rewrite (skipn_length 8 native) in *. lia.
Qed.

Lemma export_length c text native p : exportStack c text native = Ok p -> length p = length native.
Proof.
  unfold exportStack. destruct (_ || _); [discriminate|].
  destruct (export_loop _ _ _ _) as [[[q off] rest]| |] eqn:R; cbn [bind]; try discriminate.
  apply export_loop_length in R. destruct (off =? 8).
  - destruct (get_le 0 8 rest) as [v| |] eqn:G; cbn [bind]; try discriminate.
    pose proof (get_le8_length _ _ G) as L. destruct (skipn 8 rest) eqn:S; [|discriminate].
    assert (length (skipn 8 rest) = 0%nat) by now rewrite S. rewrite skipn_length in H.
    intros E. assert (Ep : p = q ++ le 8 (if v =? 0 then maxUint32 else match find_func (funcs c) 0 (u32 v) with Some i => u32 (Z.of_nat i) | None => maxUint32 end)) by congruence.
    subst p. rewrite app_length, length_le. lia.
  - destruct (off =? 0); cbn [bind]; [|discriminate]. destruct rest; [|discriminate].
    intros E. assert (p = q ++ []) by congruence. subst. rewrite app_nil_r. cbn in R. lia.
Qed.

(* ---- reading the old manifest ---- *)
Lemma length_at_located m p i k : complete m -> length (Sections m) = 12%nat -> In (i, k) section_index ->
  locates (nth i (Sections m) None) p k -> length_at (Sections m) i = Ok (len (nth k (pieces p) [])).
Proof.
  intros C L I H. assert (Hi : (i < length (Sections m))%nat).
  { rewrite L. cbn in I. repeat (destruct I as [I | I]; [inversion I; lia|]). destruct I. }
  unfold length_at. rewrite (nth_error_nth' _ None Hi).
  destruct (nth i (Sections m) None) as [r|] eqn:E.
  - cbn in H. destruct H as [H _]. now rewrite H.
  - exfalso. apply (C None); [|reflexivity]. rewrite <- E. apply nth_In. exact Hi.
Qed.

Lemma GetLength_located r p k : locates r p k -> GetLength r = len (nth k (pieces p) []).
Proof. destruct r as [r|]; cbn; [tauto|]. intros ->. reflexivity. Qed.

Definition wraplen (p : parts) : Z := match wrapframe p with [] => 0 | _ => len (wrapframe p) + len (export_ p) end.

Lemma GetLength_wrap r p : wrap_located r p -> GetLength r = wraplen p.
Proof.
  unfold wrap_located, wraplen. destruct (wrapframe p) eqn:E; auto.
  intros (w & -> & _ & H). cbn. rewrite H, len_app. reflexivity.
Qed.

Lemma wraplen_zero p : (wraplen p =? 0) = match wrapframe p with [] => true | _ => false end.
Proof.
  unfold wraplen. destruct (wrapframe p) as [|b t]; [reflexivity|]. rewrite len_cons.
  pose proof (len_nonneg t). pose proof (len_nonneg (export_ p)). apply Z.eqb_neq. lia.
Qed.

(* ---- the export section ---- *)
Lemma len_zero_iff {A} (l : list A) : (len l =? 0) = match l with [] => true | _ => false end.
Proof. destruct l; [reflexivity|]. rewrite len_cons. pose proof (len_nonneg l). apply Z.eqb_neq. lia. Qed.

Lemma map_export (hide : bool) off newRanges oldRanges p :
  length_at oldRanges sExport = Ok (len (export_ p)) -> export_ p <> [] -> 12 + len (export_ p) < 2 ^ 32 ->
  exists wf wrap frame,
    mapExportSection hide off newRanges oldRanges (wraplen p) =
      Ok (off + len wf + len (export_ p), setr sExport (off + len wf) (len (export_ p)) newRanges, wrap, frame) /\
    (if hide then wf <> [] /\ wrap = Some (Range off (len wf + len (export_ p))) /\
       (if wraplen p =? 0 then frame = wf /\ is_custom_section (str "gate.export") (export_ p) (wf ++ export_ p)
        else wf = wrapframe p)
     else wf = [] /\ wrap = None).
Proof.
  intros H NE B. unfold mapExportSection. destruct hide.
  - rewrite H. cbn [bind]. rewrite len_zero_iff. destruct (export_ p) as [|b t] eqn:EE; [congruence|]. rewrite <- EE in *.
    destruct (wraplen p =? 0) eqn:W.
    + destruct (export_wrap_denotes (export_ p) B) as (f & F & D). rewrite F. cbn [bind].
      exists f, (Some (Range off (len f + len (export_ p)))), f. cbn [Length].
      assert (SR : setr sExport (off + len f) (len (export_ p)) newRanges = set_nth sExport (Some (Range (off + (len f + len (export_ p)) - len (export_ p)) (len (export_ p)))) newRanges).
      { unfold setr. rewrite len_zero_iff, EE. do 3 f_equal. lia. }
      rewrite SR. split; [do 4 f_equal; lia|]. repeat split; auto.
      intros ->. destruct D as (nl & HN & sz & HS & E). cbn [app] in E. destruct sz as [|z sz]; [destruct HS as [HS _]; inversion HS|].
      (* the frame cannot be empty: the header writer starts with the section id *)
      unfold makeExportSectionWrapFrame in F. pose proof (makeExport_ok (len (export_ p)) (len_nonneg _) B) as M.
      unfold makeExportSectionWrapFrame in M. rewrite F in M. discriminate M.
    + exists (wrapframe p), (Some (Range off (len (wrapframe p) + len (export_ p)))), []. cbn [bind Length].
      rewrite wraplen_zero in W. assert (WL : wraplen p = len (wrapframe p) + len (export_ p)).
      { unfold wraplen. destruct (wrapframe p); [discriminate|reflexivity]. }
      rewrite WL.
      assert (SR : setr sExport (off + len (wrapframe p)) (len (export_ p)) newRanges = set_nth sExport (Some (Range (off + (len (wrapframe p) + len (export_ p)) - len (export_ p)) (len (export_ p)))) newRanges).
      { unfold setr. rewrite len_zero_iff, EE. do 3 f_equal. lia. }
      rewrite SR. split; [do 4 f_equal; lia|]. split; auto. destruct (wrapframe p); [discriminate W|discriminate].
  - rewrite (mapOld_ok _ _ _ _ _ H). cbn [bind]. exists [], None, []. rewrite len_nil, Z.add_0_r. auto.
Qed.

Lemma copy_export (hide : bool) file a c off p wf wrap frame :
  file = a ++ wrapframe p ++ export_ p ++ c -> export_ p <> [] ->
  (if hide then wf <> [] /\ wrap = Some (Range off (len wf + len (export_ p))) /\
       (if wraplen p =? 0 then frame = wf /\ is_custom_section (str "gate.export") (export_ p) (wf ++ export_ p)
        else wf = wrapframe p)
     else wf = [] /\ wrap = None) ->
  copyExportSection file (len a) wrap frame (wraplen p) (len (export_ p)) =
    Ok (wf ++ export_ p, len a + len (wrapframe p) + len (export_ p)).
Proof.
  intros F NE H. unfold copyExportSection. rewrite !wraplen_zero. destruct hide.
  - destruct H as (NW & -> & H). cbn [GetLength Length].
    assert (Z1 : (len wf + len (export_ p) =? 0) = false).
    { apply Z.eqb_neq. destruct wf; [congruence|]. rewrite len_cons. pose proof (len_nonneg wf). pose proof (len_nonneg (export_ p)). lia. }
    rewrite Z1. cbn [negb andb]. rewrite wraplen_zero in H. destruct (wrapframe p) as [|b t] eqn:E; cbn [negb].
    + destruct H as [-> D]. rewrite (copy_ok _ a (export_ p) c) by auto. cbn [bind]. rewrite len_nil. do 2 f_equal. lia.
    + rewrite <- E in *. rewrite (copy_ok _ a (wrapframe p ++ export_ p) c).
      * cbn [bind]. rewrite H. unfold wraplen. rewrite E, <- E. do 2 f_equal. lia.
      * rewrite F, <- app_assoc. reflexivity.
      * reflexivity.
      * unfold wraplen. rewrite E, <- E, len_app. reflexivity.
  - destruct H as [-> ->]. cbn [GetLength negb andb app]. change (0 =? 0) with true. cbn [negb andb].
    destruct (wrapframe p) as [|b t] eqn:E; cbn [negb].
    + rewrite (copy_ok _ a (export_ p) c) by auto. cbn [bind app]. rewrite len_nil. do 2 f_equal. lia.
    + rewrite <- E in *. assert (WL : wraplen p = len (wrapframe p) + len (export_ p)) by (unfold wraplen; now rewrite E, <- E).
      rewrite WL. rewrite (copy_ok _ (a ++ wrapframe p) (export_ p) c).
      * cbn [bind app]. do 2 f_equal. lia.
      * now rewrite F, <- app_assoc.
      * rewrite len_app. lia.
      * reflexivity.
Qed.

(* ---- the sections written ---- *)
Lemma buffer_piece bs : buffers_ok bs -> exists h size b,
  makeBufferSectionHeader bs = Ok (h, size) /\ (if size >? 0 then h ++ bufferSectionData bs else []) = b /\
  size = len b /\ buffers_denote b bs.
Proof.
  intros H. destruct (makeBufferSectionHeader bs) as [[h size]| |] eqn:M.
  - destruct (Services bs) as [|sv ss] eqn:ES; [destruct (Input bs) as [|ib it] eqn:EI; [destruct (Output bs) as [|ob ot] eqn:EO|]|].
    1:{ assert (M' : Ok (h, size) = Ok (@nil Z, 0)).
        { rewrite <- M. unfold makeBufferSectionHeader. now rewrite ES, EI, EO. }
        assert (h = []) by congruence. assert (size = 0) by congruence. subst.
        exists [], 0, []. repeat split; auto. unfold buffers_denote. now rewrite ES, EI, EO. }
    all: (destruct (buffer_section_roundtrip bs H) as (h' & s' & ct & M' & SZ & CS & LD);
      [rewrite ?ES, ?EI, ?EO; ((left; discriminate) || (right; left; discriminate) || (right; right; discriminate))|];
      assert (Eh : h' = h) by congruence; assert (Es : s' = size) by congruence; rewrite Eh, Es in *; clear Eh Es;
      assert (P : 0 < size) by (destruct CS as (nl & _ & sz & _ & E); rewrite SZ, E, len_cons; apply Z.lt_le_trans with 1; [reflexivity|];
        pose proof (len_nonneg (sz ++ nl ++ str "gate.buffer" ++ ct)); lia);
      exists h, size, (h ++ bufferSectionData bs);
      assert (G : (size >? 0) = true) by (apply Z.gtb_lt; exact P); rewrite G;
      repeat split; auto; unfold buffers_denote; rewrite ?ES, ?EI, ?EO; exists ct; split; [exact CS|exact LD]).
  - exfalso. destruct (Services bs) as [|sv ss] eqn:ES; [destruct (Input bs) as [|ib it] eqn:EI; [destruct (Output bs) as [|ob ot] eqn:EO|]|].
    1: unfold makeBufferSectionHeader in M; rewrite ES, EI, EO in M; discriminate.
    all: destruct (buffer_section_roundtrip bs H) as (h' & s' & ct & M' & _); [rewrite ?ES, ?EI, ?EO; ((left; discriminate) || (right; left; discriminate) || (right; right; discriminate))|congruence].
  - exfalso. destruct (Services bs) as [|sv ss] eqn:ES; [destruct (Input bs) as [|ib it] eqn:EI; [destruct (Output bs) as [|ob ot] eqn:EO|]|].
    1: unfold makeBufferSectionHeader in M; rewrite ES, EI, EO in M; discriminate.
    all: destruct (buffer_section_roundtrip bs H) as (h' & s' & ct & M' & _); [rewrite ?ES, ?EI, ?EO; ((left; discriminate) || (right; left; discriminate) || (right; right; discriminate))|congruence].
Qed.

Lemma init_stack_length a b : length (putInitStack a b) = 24%nat.
Proof. unfold putInitStack. rewrite !app_length, !length_le. reflexivity. Qed.

Definition usage (i : instance) (suspended : bool) : Z :=
  if suspended || ifinal i then
    if negb (len (istack i) =? 0) then len (istack i) else if suspended then initStackSize else 0
  else 0.

(* The stack, its size and its section header. *)
Lemma stack_piece c i suspended s : 11 + len (istack i) < 2 ^ 32 -> stack_of c i suspended s ->
  usage i suspended = match s with None => 0 | Some s => len s end /\
  match s with None => True | Some st => st <> [] /\
    (if (suspended || ifinal i) && negb (len (istack i) =? 0) then exportStack c (iTextAddr i) (istack i)
     else Ok (putInitStack (istart i) (ientry i))) = Ok st /\
    exists h, makeStackSectionHeader (len st) = Ok h /\ is_custom_section (str "gate.stack") st (h ++ st) end.
Proof.
  intros B H. unfold usage. rewrite len_zero_iff. destruct H as [E [F | F] | st E NE X | E F].
  - rewrite E, F. auto.
  - rewrite E, F. cbn. destruct (ifinal i); auto.
  - assert (O : suspended || ifinal i = true) by (destruct E as [E | E]; rewrite E; auto using orb_true_r). rewrite O.
    destruct (istack i) as [|b t] eqn:S; [congruence|]. rewrite <- S in *. cbn [negb andb].
    assert (L : len st = len (istack i)) by (unfold len; now rewrite (export_length _ _ _ _ X)).
    split; [now rewrite L|]. split.
    { intros ->. rewrite S, len_cons, len_nil in L. pose proof (len_nonneg t). lia. }
    split; [exact X|]. apply stack_section_denotes. rewrite L. exact B.
  - rewrite E, F. cbn [orb negb andb]. assert (L : len (putInitStack (istart i) (ientry i)) = 24) by (unfold len; now rewrite init_stack_length).
    split; [now rewrite L|]. split; [intros X; rewrite X in L; discriminate|]. split; [reflexivity|].
    apply stack_section_denotes. rewrite L. reflexivity.
Qed.

Lemma located_if off p k n : n = len (nth k (pieces p) []) -> off = len (concat (firstn k (pieces p))) ->
  locates (if n =? 0 then None else Some (Range off n)) p k.
Proof.
  intros -> ->. rewrite len_zero_iff. unfold locates. destruct (nth k (pieces p) []) eqn:E; auto.
Qed.

Lemma located_some off p k n : n = len (nth k (pieces p) []) -> (n <> 0 -> off = len (concat (firstn k (pieces p)))) ->
  locates (Some (Range off n)) p k.
Proof.
  intros -> H. split; [reflexivity|]. intros NE. apply H. destruct (nth k (pieces p) []) as [|b t]; [congruence|].
  rewrite len_cons. pose proof (len_nonneg t). lia.
Qed.

Lemma align8_ge n : n <= align8 n < n + 8 /\ align8 n mod 8 = 0.
Proof. unfold align8. split; [pose proof (Z.div_mod (n + 7) 8 ltac:(lia)); pose proof (Z.mod_pos_bound (n + 7) 8 ltac:(lia)); lia|]. apply Z_mod_mult. Qed.

Lemma align8_unique n k : n <= k < n + 8 -> k mod 8 = 0 -> align8 n = k.
Proof. intros. pose proof (align8_ge n). pose proof (Z.div_mod k 8 ltac:(lia)). pose proof (Z.div_mod (align8 n) 8 ltac:(lia)). lia. Qed.

Lemma globals_piece types cells z data : length cells = length types -> Forall (fun c => 0 <= c < 2 ^ 64) cells -> len types < 2 ^ 28 ->
  data = flat_map (le 8) cells ++ z ->
  exists g, makeGlobalSection types data = Ok g /\ globals_denote g types cells.
Proof.
  intros L F B ->. destruct types as [|t ts] eqn:E.
  - exists []. split; [apply global_section_empty|reflexivity].
  - rewrite <- E in *. destruct (global_section_denotes types cells z) as (g & c & it & M & W & A & S); auto; [congruence|].
    exists g. split; [exact M|]. unfold globals_denote. rewrite E, <- E. eauto.
Qed.

Lemma flat_le_length cells : length (flat_map (le 8) cells) = (8 * length cells)%nat.
Proof. induction cells as [|c cs IH]; [reflexivity|]. cbn [flat_map]. rewrite app_length, length_le, IH. cbn [length]. lia. Qed.

Lemma stack_blocks c i suspended s off : 11 + len (istack i) < 2 ^ 32 -> stack_of c i suspended s ->
  exists h sec so,
    (if usage i suspended =? 0 then Ok (off, [], 0, 0)
     else do h <- makeStackSectionHeader (usage i suspended);
          Ok (off + (len h + usage i suspended), h, len h + usage i suspended, off)) = Ok (off + len sec, h, len sec, so) /\
    (len sec <> 0 -> so = off) /\ stack_denotes sec s /\
    (if len sec >? 0 then
       do stack <- (if (suspended || ifinal i) && negb (len (istack i) =? 0) then exportStack c (iTextAddr i) (istack i)
                    else Ok (putInitStack (istart i) (ientry i)));
       Ok (h ++ stack)
     else Ok []) = Ok sec.
Proof.
  intros B H. destruct (stack_piece _ _ _ _ B H) as [U P]. rewrite U. destruct s as [st|].
  - destruct P as (NE & ST & h & EH & CS). rewrite len_zero_iff. destruct st as [|b t] eqn:E; [congruence|]. rewrite <- E in *.
    rewrite EH. cbn [bind]. exists h, (h ++ st), off. rewrite len_app.
    assert (P : len h + len st >? 0 = true).
    { apply Z.gtb_lt. rewrite E, len_cons. pose proof (len_nonneg h). pose proof (len_nonneg t). lia. }
    rewrite P, ST. cbn [bind]. auto.
  - exists [], [], 0. change (len (@nil Z)) with 0. change (0 =? 0) with true. change (0 >? 0) with false. rewrite Z.add_0_r. cbn. repeat split; auto. congruence.
Qed.

Ltac nr := repeat rewrite nth_setr_other by discriminate; rewrite nth_setr_same;
    [|rewrite ?setr_length; apply Nat.ltb_lt; reflexivity|repeat rewrite nth_setr_other by discriminate; reflexivity].

Lemma layout_main prog i bs suspended p objmap cells s :
  describes (man prog) p -> complete (man prog) -> holds (pfile prog) p objmap -> len objmap = ObjectMapSize (man prog) ->
  table_ p <> [] -> export_ p <> [] -> representable prog (export_ p) i bs ->
  globals_are i (length (GlobalTypes (man prog))) cells -> stack_of (pmap prog) i suspended s ->
  exists prog' q, Snapshot prog i bs suspended = Ok prog' /\
    describes (man prog') q /\ holds (pfile prog') q objmap /\ ObjectMapSize (man prog') = ObjectMapSize (man prog) /\
    same_program p q /\ start_ q = [] /\ wrapping p q (suspended || ifinal i) /\
    memory_denotes (memory_ q) (len (imemory i)) (MemorySizeLimit (man prog)) /\
    data_denotes (data_ q) (imemory i) /\
    globals_denote (global_ q) (GlobalTypes (man prog)) cells /\
    snapshot_denotes (snapshot_ q) (isnap i) /\
    buffers_denote (buffer_ q) bs /\
    stack_denotes (stack_ q) s /\
    GlobalTypes (man prog') = GlobalTypes (man prog) /\ MemorySizeLimit (man prog') = MemorySizeLimit (man prog) /\
    pmap prog' = pmap prog /\ ptext prog' = ptext prog /\ pglobals prog' = iglobals i /\ pmemory prog' = imemory i /\
    MemorySize (man prog') = len (imemory i) /\ StackUsage (man prog') = usage i suspended /\
    nth sStart (Sections (man prog')) None = None /\
    pstack prog' = (if (suspended || ifinal i) && negb (len (istack i) =? 0) then istack i else repeat 0 (Z.to_nat (alignPageSize (usage i suspended)))).
Proof.
  intros D C HF HM NT NE R G HS.
  destruct D as (D8 & DL & DS & DSn & DW & DB & DSt & DSz).
  destruct R as (R1 & R2 & R3 & R4 & R5 & R6 & R7 & R8 & R9 & R10).
  assert (LA : forall i k, In (i, k) section_index -> length_at (Sections (man prog)) i = Ok (len (nth k (pieces p) []))).
  { intros i0 k0 I. apply length_at_located; auto. }
  pose proof (LA 1 1 ltac:(cbn; auto 20))%nat as L1. pose proof (LA 2 2 ltac:(cbn; auto 20))%nat as L2.
  pose proof (LA 3 3 ltac:(cbn; auto 20))%nat as L3. pose proof (LA 4 4 ltac:(cbn; auto 20))%nat as L4.
  pose proof (LA 5 5 ltac:(cbn; auto 20))%nat as L5. pose proof (LA 6 6 ltac:(cbn; auto 20))%nat as L6.
  pose proof (LA 7 9 ltac:(cbn; auto 20))%nat as L7. pose proof (LA 8 10 ltac:(cbn; auto 20))%nat as L8.
  pose proof (LA 9 11 ltac:(cbn; auto 20))%nat as L9. pose proof (LA 10 12 ltac:(cbn; auto 20))%nat as L10.
  pose proof (LA 11 15 ltac:(cbn; auto 20))%nat as L11. clear LA.
  cbn [nth pieces] in L1, L2, L3, L4, L5, L6, L7, L8, L9, L10, L11.
  apply GetLength_located in DSn, DB, DSt. cbn [nth pieces] in DSn, DB, DSt.
  apply GetLength_wrap in DW.
  destruct G as (G1 & G2 & unused & G3).
  assert (M0 : 0 <= len (imemory i) < 2 ^ 32) by (pose proof (len_nonneg (imemory i)); lia).
  destruct (memory_section_denotes _ _ M0 R2) as (mem & lims & EM & ME1 & ME2).
  destruct (globals_piece (GlobalTypes (man prog)) cells [] (flat_map (le 8) cells) G1 G2 R3 ltac:(now rewrite app_nil_r)) as (glob & EG & GD).
  destruct (snapshot_section_roundtrip (isnap i) R4 R5 R6 R7) as (sn & snc & ES & SD).
  destruct (buffer_piece bs R10) as (bh & bsz & bsec & EB & BE & BL & BD).
  destruct (stack_piece _ _ _ _ R9 HS) as [SU SP].
  destruct (data_section_denotes (imemory i) R1) as (dh & dsz & ED & DW1 & DW2).
  destruct HF as (pad & HF & HP1 & HP2).
  unfold Snapshot. fold (usage i suspended).
  (* globals *)
  assert (GL : len (iglobals i) = len unused + 8 * len (GlobalTypes (man prog))).
  { rewrite G3, len_app. unfold len at 2. rewrite flat_le_length, G1. unfold len. lia. }
  assert (GLT : (len (iglobals i) <? 8 * len (GlobalTypes (man prog))) = false) by (apply Z.ltb_ge; pose proof (len_nonneg unused); lia).
  rewrite GLT.
  assert (GS : skipn (Z.to_nat (len (iglobals i) - 8 * len (GlobalTypes (man prog)))) (iglobals i) = flat_map (le 8) cells).
  { replace (Z.to_nat _) with (length unused) by (unfold len in *; lia). rewrite G3, skipn_app, skipn_all, Nat.sub_diag. reflexivity. }
  rewrite GS.
  rewrite (mapOld_ok _ _ _ sType _ L1); cbn [bind].
  rewrite (mapOld_ok _ _ _ sImport _ L2); cbn [bind].
  rewrite (mapOld_ok _ _ _ sFunction _ L3); cbn [bind].
  rewrite (mapOld_ok _ _ _ sTable _ L4); cbn [bind].
  rewrite EM; cbn [bind]. rewrite mapNew_ok.
  rewrite EG; cbn [bind]. rewrite mapNew_ok.
  rewrite ES; cbn [bind]. rewrite DW.
  match goal with |- context [mapExportSection ?h ?o ?nr ?or _] =>
    destruct (map_export h o nr or p L7 NE R8) as (wf & wrap & frame & EX & WX) end.
  rewrite EX; cbn [bind].
  rewrite (mapOld_ok _ _ _ sElement _ L9); cbn [bind].
  rewrite (mapOld_ok _ _ _ sCode _ L10); cbn [bind].
  rewrite EB; cbn [bind].
  match goal with |- context [if usage i suspended =? 0 then Ok (?o, [], 0, 0) else _] =>
    destruct (stack_blocks (pmap prog) i suspended s o R9 HS) as (sh & sec & so & EK1 & EK2 & EK3 & EK4) end.
  rewrite EK1; cbn [bind].
  rewrite ED; cbn [bind]. rewrite mapNew_ok.
  change (length_at (Sections (man prog)) sMemory) with (length_at (Sections (man prog)) 5); rewrite L5; cbn [bind].
  change (length_at (Sections (man prog)) sGlobal) with (length_at (Sections (man prog)) 6); rewrite L6; cbn [bind].
  change (length_at (Sections (man prog)) sExport) with (length_at (Sections (man prog)) 7); rewrite L7; cbn [bind].
  change (length_at (Sections (man prog)) sStart) with (length_at (Sections (man prog)) 8); rewrite L8; cbn [bind].
  change (length_at (Sections (man prog)) sData) with (length_at (Sections (man prog)) 11); rewrite L11; cbn [bind].
  match goal with |- context [copy_len ?nr _] => set (NR := nr) end.
  (* the new ranges *)
  assert (NRL : length NR = 12%nat) by (unfold NR; rewrite !setr_length; reflexivity).
  assert (N4 : nth 4 NR None = Some (Range (8 + len (type_ p) + len (import_ p) + len (function_ p)) (len (table_ p)))).
  { unfold NR. nr. destruct (table_ p) eqn:ET; [congruence|]. rewrite len_zero_iff. reflexivity. }
  assert (N7 : exists o, nth 7 NR None = Some (Range o (len (export_ p)))).
  { unfold NR. nr. destruct (export_ p) eqn:ET; [congruence|]. rewrite len_zero_iff. eauto. }
  assert (NX : (if GetLength wrap =? 0 then length_at NR sExport else Ok 0) = Ok (if GetLength wrap =? 0 then len (export_ p) else 0)).
  { destruct (GetLength wrap =? 0); [|reflexivity]. unfold length_at. rewrite (nth_error_nth' _ None) by (rewrite NRL; apply Nat.ltb_lt; reflexivity).
    destruct N7 as [o N7]. change sExport with 7%nat. rewrite N7. reflexivity. }
  rewrite NX; cbn [bind].
  assert (CL : copy_len NR [sTable; sFunction; sImport; sType] = Ok (8 + len (type_ p) + len (import_ p) + len (function_ p) + len (table_ p))).
  { cbn [copy_len]. rewrite (nth_error_nth' _ None) by (rewrite NRL; apply Nat.ltb_lt; reflexivity).
    change sTable with 4%nat. rewrite N4. cbn [Length Offset]. destruct (table_ p) eqn:ET; [congruence|]. rewrite len_zero_iff. reflexivity. }
  rewrite CL; cbn [bind].
  (* copying *)
  assert (FE : pfile prog = flat p ++ pad ++ objmap) by exact HF.
  unfold flat, pieces in FE. cbn [concat] in FE. rewrite app_nil_r in FE. rewrite <- !app_assoc in FE.
  assert (H8 : len (header p) = 8) by (unfold len; now rewrite D8).
  rewrite (copy_ok (pfile prog) [] (header p ++ type_ p ++ import_ p ++ function_ p ++ table_ p)
    (memory_ p ++ global_ p ++ snapshot_ p ++ wrapframe p ++ export_ p ++ start_ p ++ element_ p ++ code_ p ++ buffer_ p ++ stack_ p ++ data_ p ++ custom p ++ pad ++ objmap));
    [|rewrite FE; cbn [app]; rewrite <- !app_assoc; reflexivity|reflexivity|rewrite !len_app; lia].
  cbn [bind].
  match goal with |- context [copyExportSection _ ?o _ _ _ _] => replace o with
    (len (header p ++ type_ p ++ import_ p ++ function_ p ++ table_ p ++ memory_ p ++ global_ p ++ snapshot_ p)) by (rewrite !len_app, DSn; lia) end.
  rewrite (copy_export (suspended || ifinal i) (pfile prog) _ (start_ p ++ element_ p ++ code_ p ++ buffer_ p ++ stack_ p ++ data_ p ++ custom p ++ pad ++ objmap) _ p wf wrap frame) by
    (first [exact WX | exact NE | rewrite FE, <- !app_assoc; reflexivity]).
  cbn [bind].
  change (length_at (Sections (man prog)) sElement) with (length_at (Sections (man prog)) 9); rewrite L9; cbn [bind].
  change (length_at (Sections (man prog)) sCode) with (length_at (Sections (man prog)) 10); rewrite L10; cbn [bind].
  rewrite (copy_ok (pfile prog) (header p ++ type_ p ++ import_ p ++ function_ p ++ table_ p ++ memory_ p ++ global_ p ++ snapshot_ p ++ wrapframe p ++ export_ p ++ start_ p)
    (element_ p ++ code_ p) (buffer_ p ++ stack_ p ++ data_ p ++ custom p ++ pad ++ objmap));
    [|rewrite FE, <- !app_assoc; reflexivity|rewrite !len_app; lia|rewrite !len_app; lia].
  cbn [bind]. rewrite EK4; cbn [bind].
  assert (FZ : ModuleSize (man prog) = len (header p) + len (type_ p) + len (import_ p) + len (function_ p) + len (table_ p) + len (memory_ p) +
    len (global_ p) + len (snapshot_ p) + len (wrapframe p) + len (export_ p) + len (start_ p) + len (element_ p) + len (code_ p) + len (buffer_ p) +
    len (stack_ p) + len (data_ p) + len (custom p)).
  { rewrite DSz. unfold flat, pieces. cbn [concat]. rewrite !len_app, len_nil. lia. }
  rewrite (copy_ok (pfile prog) (header p ++ type_ p ++ import_ p ++ function_ p ++ table_ p ++ memory_ p ++ global_ p ++ snapshot_ p ++ wrapframe p ++ export_ p ++ start_ p
     ++ element_ p ++ code_ p ++ buffer_ p ++ stack_ p ++ data_ p) (custom p) (pad ++ objmap));
    [|rewrite FE, <- !app_assoc; reflexivity|rewrite !len_app, DB, DSt; lia|rewrite !len_app, DB, DSt; lia].
  cbn [bind].
  match goal with |- context [copyFileRange (pfile prog) (align8 ?o) _] => replace o with (len (flat p)) end.
  2:{ rewrite <- DSz. lia. }
  assert (AL : align8 (len (flat p)) = len (flat p ++ pad)).
  { apply align8_unique; rewrite len_app; [pose proof (len_nonneg pad); lia|exact HP1]. }
  rewrite (copy_ok (pfile prog) (flat p ++ pad) objmap []);
    [|rewrite HF, app_nil_r, <- app_assoc; reflexivity|exact AL|symmetry; exact HM].
  cbn [bind]. rewrite BE.
  set (q := {| header := header p; type_ := type_ p; import_ := import_ p; function_ := function_ p; table_ := table_ p; memory_ := mem;
    global_ := glob; snapshot_ := sn; wrapframe := wf; export_ := export_ p; start_ := []; element_ := element_ p; code_ := code_ p; buffer_ := bsec;
    stack_ := sec; data_ := dh ++ imemory i; custom := custom p |}).
  eexists _, q. split; [reflexivity|]. cbn [man pfile pmap ptext pglobals pmemory ObjectMapSize GlobalTypes MemorySizeLimit MemorySize StackUsage].
  split; [|split].
  - unfold describes. cbn [Sections SnapshotSection ExportSectionWrap BufferSection StackSection ModuleSize].
    split; [exact D8|]. split; [exact NRL|]. split; [|split; [|split; [|split; [|split]]]].
    + intros i0 k0 I. cbn in I.
      repeat destruct I as [I | I]; try contradiction; apply pair_equal_spec in I as [<- <-]; unfold NR.
      8: { repeat rewrite nth_setr_other by discriminate. reflexivity. }
      all: nr; apply located_if; [cbn; rewrite ?len_app; reflexivity|].
      all: cbn [firstn pieces concat q header type_ import_ function_ table_ memory_ global_ snapshot_ wrapframe export_ start_ element_ code_ buffer_ stack_ data_ custom].
      all: rewrite ?len_app, ?BL; change (len (@nil Z)) with 0; lia.
    + apply located_some; [reflexivity|]. intros _. cbn [firstn pieces concat q header type_ import_ function_ table_ memory_ global_ snapshot_ wrapframe export_ start_ element_ code_ buffer_ stack_ data_ custom].
      change (len (@nil Z)) with 0; rewrite ?len_app; change (len (@nil Z)) with 0; lia.
    + unfold wrap_located. cbn [q wrapframe export_]. destruct (suspended || ifinal i).
      * destruct WX as (NW & WR & _). destruct wf as [|b t] eqn:EW; [congruence|]. rewrite <- EW in *. eexists. split; [exact WR|].
        split; cbn [Offset Length]; [|rewrite len_app; reflexivity].
        cbn [firstn pieces concat q header type_ import_ function_ table_ memory_ global_ snapshot_ wrapframe export_ start_ element_ code_ buffer_ stack_ data_ custom].
        change (len (@nil Z)) with 0; rewrite ?len_app; change (len (@nil Z)) with 0; lia.
      * destruct WX as [-> ->]. reflexivity.
    + apply located_some; [cbn; congruence|]. intros _.
      cbn [firstn pieces concat q header type_ import_ function_ table_ memory_ global_ snapshot_ wrapframe export_ start_ element_ code_ buffer_ stack_ data_ custom].
      change (len (@nil Z)) with 0; rewrite ?len_app; change (len (@nil Z)) with 0; lia.
    + apply located_some; [reflexivity|]. intros NZ. rewrite (EK2 NZ).
      cbn [firstn pieces concat q header type_ import_ function_ table_ memory_ global_ snapshot_ wrapframe export_ start_ element_ code_ buffer_ stack_ data_ custom].
      change (len (@nil Z)) with 0; rewrite ?len_app; change (len (@nil Z)) with 0; rewrite ?BL. lia.
    + unfold flat. cbn [pieces concat q header type_ import_ function_ table_ memory_ global_ snapshot_ wrapframe export_ start_ element_ code_ buffer_ stack_ data_ custom].
      change (len (@nil Z)) with 0; rewrite ?len_app; change (len (@nil Z)) with 0; rewrite FZ, DSn, DB, DSt, BL.
      assert (WL : wraplen p + (if wraplen p =? 0 then len (export_ p) else 0) = len (wrapframe p) + len (export_ p)).
      { rewrite wraplen_zero. unfold wraplen. destruct (wrapframe p); change (len (@nil Z)) with 0; lia. }
      assert (WL2 : GetLength wrap + (if GetLength wrap =? 0 then len (export_ p) else 0) = len wf + len (export_ p)).
      { destruct (suspended || ifinal i).
        - destruct WX as (NW & -> & _). cbn [GetLength Length]. destruct (Z.eqb_spec (len wf + len (export_ p)) 0); [|lia].
          destruct wf as [|b t]; [congruence|]. rewrite len_cons in *. pose proof (len_nonneg t). pose proof (len_nonneg (export_ p)). lia.
        - destruct WX as [-> ->]. reflexivity. }
      lia.
  - match goal with |- holds (?m ++ ?pd ++ objmap) q objmap => exists pd; assert (ME : m = flat q) end.
    { unfold flat. cbn [pieces concat q header type_ import_ function_ table_ memory_ global_ snapshot_ wrapframe export_ start_ element_ code_ buffer_ stack_ data_ custom].
      rewrite app_nil_r, <- !app_assoc. reflexivity. }
    rewrite ME. split; [reflexivity|]. pose proof (align8_ge (len (flat q))) as [A1 A2].
    assert (RL : len (repeat 0 (Z.to_nat (align8 (len (flat q)) - len (flat q)))) = align8 (len (flat q)) - len (flat q)).
    { unfold len at 1. rewrite repeat_length. lia. }
    rewrite RL. split; [rewrite <- A2; f_equal; lia|lia].
  - unfold same_program. cbn [q header type_ import_ function_ table_ memory_ global_ snapshot_ wrapframe export_ start_ element_ code_ buffer_ stack_ data_ custom].
    split; [reflexivity|]. split; [repeat split|]. split; [reflexivity|]. split.
    { unfold wrapping. cbn [q wrapframe export_]. destruct (suspended || ifinal i); [|tauto].
      destruct WX as (NW & _ & X). split; [exact NW|]. rewrite wraplen_zero in X. destruct (wrapframe p); tauto. }
    split; [exists lims; split; assumption|]. split; [exists dsz; split; assumption|].
    split; [exact GD|]. split; [exists snc; exact SD|]. split; [exact BD|]. split; [exact EK3|].
    do 8 (split; [reflexivity|]). split; [|reflexivity]. cbn [Sections]. unfold NR. change sStart with 8%nat.
    repeat rewrite nth_setr_other by discriminate. reflexivity.
Qed.


(* ---- after reloading ---- *)
Lemma reload_complete m : complete (reload m).
Proof. intros r I. cbn in I. apply in_map_iff in I as ([r'|] & <- & _); discriminate. Qed.

Lemma reload_describes m p : describes m p -> describes (reload m) p.
Proof.
  intros (D1 & D2 & D3 & D4). split; [exact D1|]. split; [cbn; now rewrite map_length|]. split; [|exact D4].
  intros i k I. cbn [reload Sections]. set (f := fun r : option range => match r with Some r => Some r | None => Some (Range 0 0) end).
  assert (Hi : (i < length (Sections m))%nat).
  { rewrite D2. cbn in I. repeat (destruct I as [I | I]; [inversion I; lia|]). destruct I. }
  rewrite (nth_indep _ None (f None)) by (rewrite map_length; exact Hi). rewrite map_nth.
  specialize (D3 i k I). destruct (nth i (Sections m) None) as [r|]; [exact D3|]. cbn in D3 |- *.
  rewrite D3. split; [reflexivity|congruence].
Qed.

Lemma module_of_flat prog p objmap : describes (man prog) p -> holds (pfile prog) p objmap -> module_of prog = flat p.
Proof.
  intros (_ & _ & _ & _ & _ & _ & _ & Z1) (pad & F & _). unfold module_of. rewrite Z1, F. unfold len. rewrite Nat2Z.id.
  rewrite firstn_app, firstn_all, Nat.sub_diag. cbn. apply app_nil_r.
Qed.

(* ---- failures ---- *)
Ltac mk H := match type of H with bind ?x _ = Ok _ => let E := fresh "E" in destruct x eqn:E; cbn [bind] in H; try discriminate H end.
Ltac brk := match goal with H : context [let '(_, _) := ?x in _] |- _ => destruct x end.

Lemma no_start_fails prog i bs suspended r : nth sStart (Sections (man prog)) None = None ->
  Snapshot prog i bs suspended <> Ok r.
Proof.
  intros N H. assert (L : length_at (Sections (man prog)) sStart = Panic).
  { unfold length_at. destruct (nth_error (Sections (man prog)) sStart) as [[x|]|] eqn:E; auto.
    apply nth_error_nth with (d := None) in E. congruence. }
  unfold Snapshot in H. destruct (_ <? _); [discriminate|].
  repeat first [mk H; repeat match goal with a : _ * _ |- _ => destruct a end | rewrite mapNew_ok in H]. all: congruence.
Qed.

Lemma mapOld_other j off d src i o d' : mapOldSection off d src i = Ok (o, d') -> i <> j -> nth j d' None = nth j d None.
Proof.
  unfold mapOldSection. intros H NE. destruct (length_at src i); cbn [bind] in H; try discriminate.
  destruct (a =? 0); assert (E : forall x y z w : Z * list (option range), Ok x = Ok y -> x = y) by congruence.
  - assert (d = d') by congruence. now subst.
  - assert (X : set_nth i (Some (Range off a)) d = d') by congruence. rewrite <- X. now apply nth_set_other.
Qed.

Lemma mapOld_zero off d src i o d' : length_at src i = Ok 0 -> mapOldSection off d src i = Ok (o, d') -> d' = d.
Proof. unfold mapOldSection. intros ->. cbn. congruence. Qed.

Lemma mapExport_other j hide off nr or w o nr' wr fr : mapExportSection hide off nr or w = Ok (o, nr', wr, fr) -> sExport <> j ->
  nth j nr' None = nth j nr None.
Proof.
  unfold mapExportSection. intros H NE. destruct hide.
  - destruct (length_at or sExport); cbn [bind] in H; try discriminate. destruct (a =? 0); [congruence|].
    destruct (w =? 0).
    + destruct (makeExportSectionWrapFrame a); cbn [bind] in H; try discriminate.
      match type of H with Ok (_, ?x, _, _) = _ => assert (X : x = nr') by congruence end. rewrite <- X. now apply nth_set_other.
    + cbn [bind] in H. match type of H with Ok (_, ?x, _, _) = _ => assert (X : x = nr') by congruence end. rewrite <- X. now apply nth_set_other.
  - destruct (mapOldSection _ _ _ _) as [[o1 n1]| |] eqn:E; cbn [bind] in H; try discriminate.
    assert (n1 = nr') by congruence. subst. eapply mapOld_other; eauto.
Qed.

Lemma mapExport_zero hide off nr or w o nr' wr fr : mapExportSection hide off nr or w = Ok (o, nr', wr, fr) -> length_at or sExport = Ok 0 ->
  nr' = nr /\ wr = None.
Proof.
  unfold mapExportSection. intros H E. destruct hide.
  - rewrite E in H. cbn in H. split; congruence.
  - destruct (mapOldSection _ _ _ _) as [[o1 n1]| |] eqn:M; cbn [bind] in H; try discriminate.
    apply (mapOld_zero _ _ _ _ _ _ E) in M. split; congruence.
Qed.

Ltac walk H := repeat first [mk H; repeat match goal with a : _ * _ |- _ => destruct a end | rewrite mapNew_ok in H].

Lemma nth_None_error (l : list (option range)) i : nth i l None = None -> nth_error l i = None \/ nth_error l i = Some None.
Proof. intros H. destruct (nth_error l i) as [[x|]|] eqn:E; auto. apply nth_error_nth with (d := None) in E. congruence. Qed.

Lemma no_table_fails prog i bs suspended r : length_at (Sections (man prog)) sTable = Ok 0 ->
  Snapshot prog i bs suspended <> Ok r.
Proof.
  intros L H. unfold Snapshot in H. destruct (_ <? _); [discriminate|].
  walk H.
  match goal with E : copy_len ?nr _ = Ok _ |- _ =>
    assert (N : nth sTable nr None = None); [|cbn [copy_len] in E; destruct (nth_None_error _ _ N) as [X|X]; rewrite X in E; discriminate] end.
  rewrite nth_setr_other by discriminate.
  repeat (match goal with
    | M : mapOldSection _ ?d _ sTable = Ok (_, ?l) |- nth sTable ?l None = None => rewrite (mapOld_zero _ _ _ _ _ _ L M)
    | M : mapOldSection _ _ _ ?k = Ok (_, ?l) |- nth sTable ?l None = None => rewrite (mapOld_other sTable _ _ _ _ _ _ M) by discriminate
    | M : mapExportSection _ _ _ _ _ = Ok (_, ?l, _, _) |- nth sTable ?l None = None => rewrite (mapExport_other sTable _ _ _ _ _ _ _ _ _ M) by discriminate
    | |- nth sTable (setr _ _ _ _) None = None => rewrite nth_setr_other by discriminate
    end).
  reflexivity.
Qed.

Lemma no_export_fails prog i bs suspended r : length_at (Sections (man prog)) sExport = Ok 0 ->
  Snapshot prog i bs suspended <> Ok r.
Proof.
  intros L H. unfold Snapshot in H. destruct (_ <? _); [discriminate|].
  rewrite L in H. cbn [bind] in H. walk H.
  match goal with M : mapExportSection _ _ _ _ _ = Ok _ |- _ => destruct (mapExport_zero _ _ _ _ _ _ _ _ _ M L) as [Q1 Q2]; subst end.
  match goal with E : (if _ then length_at ?nr _ else _) = Ok _ |- _ =>
    cbn [GetLength] in E; change (0 =? 0) with true in E; cbv iota in E; unfold length_at in E;
    assert (N : nth sExport nr None = None); [|destruct (nth_None_error _ _ N) as [X|X]; rewrite X in E; discriminate] end.
  repeat (match goal with
    | M : mapOldSection _ _ _ ?k = Ok (_, ?l) |- nth sExport ?l None = None => rewrite (mapOld_other sExport _ _ _ _ _ _ M) by discriminate
    | |- nth sExport (setr _ _ _ _) None = None => rewrite nth_setr_other by discriminate
    end).
  reflexivity.
Qed.
