From Verif Require Import BaseLemmas Varint VarintProofs StreamState StreamStateProofs ReadStream ReadStreamProofs ReadStreamProofs2.

(* The wakeup invariant is needed (and holds) only if the stream was started in
   a state that a suspension can produce: [q]. *)
Definition Inv L f (q : bool) s := InvA s /\ InvB L f s /\ (q = true -> InvC s).

(* Hypotheses on the state a Transfer first starts from. *)
Definition start_ok (L : Z) (q : bool) (x : State) : Prop :=
  state_ok x /\ len (Data x) <= L /\
  (q = true -> has FlagSubscribing (Flags x) = false -> has FlagReadWriting (Flags x) = true -> Data x <> [] \/ Subscribed x <> 0).

Lemma start_pending x hasr o sr g c : pending (start x hasr o sr g c) = Data x.
Proof. unfold pending, start; cbn. rewrite app_nil_r. destruct (Data x); reflexivity. Qed.

Lemma start_nocrash x hasr o sr g c : state_ok x -> pc (start x hasr o sr g c) = PTop.
Proof.
  intros (_ & _ & _ & H). unfold start; cbn [pc]. destruct (has FlagSendReceiving (Flags x)); [reflexivity|].
  destruct (H eq_refl) as [-> _]. rewrite andb_false_r. reflexivity.
Qed.

Lemma InvB_start L f x hasr o sr g c :
  state_ok x -> len (Data x) <= L -> concat o ++ Data x = sr -> Forall (fun d => len d <= L) o ->
  (has FlagSendReceiving (Flags x) = true -> Forall nonempty o) ->
  (has FlagSendReceiving (Flags x) = false ->
          (c = true /\ Forall nonempty o) \/
          (c = false /\ exists o', o = o' ++ [[]] /\ Forall nonempty o') \/
          (f = true /\ o = [])) ->
  (has FlagReadWriting (Flags x) = true -> c = false) ->
  (has FlagSendReceiving (Flags x) = true -> c = true -> Data x <> []) ->
  InvB L f (start x hasr o sr g c).
Proof.
  intros HO HL HF HS H1 H2 H3 H4. pose proof HO as (_ & _ & _ & HI).
  pose proof (start_nocrash x hasr o sr g c HO) as PC.
  pose proof (start_pending x hasr o sr g c) as PE.
  assert (HD : has_data (pkt (start x hasr o sr g c)) = true <-> Data x <> [])
    by (unfold start; cbn [pkt]; destruct (Data x); cbn; easyB).
  constructor.
  - rewrite PE. exact HF.
  - reflexivity.
  - rewrite PC. discriminate.
  - rewrite PE. unfold start; cbn [send r]. intros SE. destruct (HI SE) as [-> ->]. rewrite andb_false_r. now split.
  - rewrite PC. exact I.
  - rewrite PE. unfold start; cbn [out]. now split.
  - exact H1.
  - unfold start at 1; cbn [send]. intros SE. specialize (H2 SE). destruct (HI SE) as [_ DE].
    unfold start; cbn [cut out]. rewrite DE. cbn [has_data]. now rewrite andb_false_r, orb_false_r.
  - rewrite PE.
    assert (HC : cut (start x hasr o sr g c) = c || (negb (r (start x hasr o sr g c)) && has_data (pkt (start x hasr o sr g c)))) by reflexivity.
    assert (HR : r (start x hasr o sr g c) = hasr && has FlagReadWriting (Flags x)) by reflexivity.
    assert (HS' : send (start x hasr o sr g c) = has FlagSendReceiving (Flags x)) by reflexivity.
    rewrite HC, HS'. split.
    + intros RR. rewrite RR. rewrite HR in RR. apply andb_true_iff in RR. rewrite H3 by tauto. reflexivity.
    + intros SE RR. rewrite RR. cbn [negb andb]. rewrite <- HD. rewrite orb_true_iff. split; [|now right].
      intros [->|?]; [|assumption]. apply HD. now apply H4.
Qed.

Lemma InvC_start x hasr o sr g c : state_ok x ->
  (has FlagSubscribing (Flags x) = false -> has FlagReadWriting (Flags x) = true -> Data x <> [] \/ Subscribed x <> 0) ->
  InvC (start x hasr o sr g c).
Proof.
  intros HO HR. pose proof (start_nocrash x hasr o sr g c HO) as PC.
  constructor; rewrite ?PC; try easyC; unfold start; cbn [sub r token poking pkt sdata subscribed readpos].
  intros S1 R1 _ _. apply andb_true_iff in R1. destruct R1 as [_ R1]. destruct (HR S1 R1) as [H0|H0].
  - left. destruct (Data x); easyC.
  - right; right; left. assumption.
Qed.

Lemma Inv_init L q x hasr : start_ok L q x -> Inv L (negb (has FlagSendReceiving (Flags x))) q (rinit x hasr).
Proof.
  intros (HO & HL & HR). pose proof HO as (H1 & H2 & H3 & H4). pose proof (len_nonneg (Data x)).
  split; [|split].
  - apply InvA_start; try lia. rewrite u32_id; lia.
  - apply InvB_start; try assumption; try easyB.
    + constructor.
    + intros _. constructor.
    + intros ->. right; right. now split.
  - intros Q. apply InvC_start; [assumption|now apply HR].
Qed.

Lemma state_of_ok L f q s : Inv L f q s -> pc s = PDone -> L < 2 ^ 31 -> subscribed s < 2 ^ 31 -> state_ok (state_of s).
Proof.
  intros ((A1 & A2 & A3 & A4 & A5 & A6) & [B1 B2 B3 B4 B5 B6 B7 B8 B9] & _) PC HL HS.
  destruct (flags_bits (sub s) (r s) (send s) (hi s) ltac:(lia)) as (F1 & F2 & F3 & F4 & F5).
  unfold state_of, state_ok; cbn [Flags Subscribed Data]. rewrite F2, F3.
  assert (PE : pending s = sdata s) by (unfold pending; now rewrite (B3 PC)). rewrite PE in *.
  split; [lia|]. split; [lia|]. split; [lia|]. intros SE. now apply B4.
Qed.

Lemma Inv_resume M L f q s hasr s' : 16 < M < 2 ^ 31 -> L <= M -> Inv L f q s ->
  step M s (EResume hasr) = Some s' ->
  pc s = PDone /\ poking s = false /\
  ((subscribed s < 2 ^ 31 /\ Inv L f q s' /\ s' = start (state_of s) hasr (out s) (src s) (granted s) (cut s)) \/
   (2 ^ 31 <= subscribed s /\ s' = set_pc s PCrash)).
Proof.
  intros HM HL HI E. unfold step in E. destruct (poking s) eqn:PO; [discriminate|].
  destruct (pc s) eqn:PC; try discriminate. split; [reflexivity|]. split; [reflexivity|].
  pose proof HI as ((A1 & A2 & A3 & A4 & A5 & A6) & [B1 B2 B3 B4 B5 B6 B7 B8 B9] & HC).
  destruct (flags_bits (sub s) (r s) (send s) (hi s) ltac:(lia)) as (F1 & F2 & F3 & F4 & F5).
  rewrite PC in A6.
  assert (PE : pending s = sdata s) by (unfold pending; now rewrite (B3 PC)). rewrite PE in *.
  destruct (Z.ltb_spec (subscribed s) (2 ^ 31)) as [HS|HS].
  - left. assert (HL' : L < 2 ^ 31) by (clear - HM HL; lia). pose proof (state_of_ok L f q s HI PC HL' HS) as HO.
    rewrite resave_ok in E; [|assumption|unfold state_of; cbn [Data]; clear - B6 HL; lia]. injection E as <-.
    split; [assumption|]. split; [|reflexivity].
    split; [|split].
    + apply InvA_start; unfold state_of; cbn [Flags Subscribed]; [clear - F5 A5; lia|assumption| |assumption].
      rewrite <- A3. rewrite A6, Z.sub_0_r, u32_id by assumption. reflexivity.
    + clear - B1 B6 B7 B8 B9 F2 F3 HO. destruct B6. apply InvB_start; unfold state_of in *; cbn [Flags Subscribed Data] in *; rewrite ?F2, ?F3 in *; try assumption; try (apply B9).
      intros SE CU. destruct B9 as [B9 B9']. destruct (r s); [rewrite B9 in CU by reflexivity; discriminate|]. now apply B9'.
    + intros Q. destruct (HC Q) as [C1 C2 C3 C4 C5 C6 C7]. apply InvC_start; [assumption|]. unfold state_of; cbn [Flags Data Subscribed]. rewrite F1, F2. intros S1 R1.
      destruct (C3 (or_intror PC) R1) as [T1 CL]. destruct (C1 S1 R1 T1 PO) as [H|[H|[H|[H|[H|H]]]]]; try congruence.
      * rewrite (B3 PC) in H. discriminate.
      * now left.
      * right. congruence.
  - right. split; [assumption|]. rewrite resave_big in E; [now injection E as <-|unfold state_of; cbn [Flags Subscribed]; clear - F5 A5 HS A1; lia..].
Qed.

Lemma Inv_crash L f q s : Inv L f q s -> pc s = PDone -> Inv L f q (set_pc s PCrash).
Proof.
  intros ((A1 & A2 & A3 & A4 & A5 & A6) & [B1 B2 B3 B4 B5 B6 B7 B8 B9] & HC) PC.
  split; [|split].
  - unfold InvA; simp. easyB.
  - split; unfold pending in *; simp; easyB.
  - intros Q. destruct (HC Q) as [C1 C2 C3 C4 C5 C6 C7]. split; simp; easyC.
Qed.

Lemma Inv_step M L f q s e s' : 16 < M < 2 ^ 31 -> M - 16 <= L -> L <= M -> Inv L f q s -> step M s e = Some s' -> Inv L f q s'.
Proof.
  intros HM HL1 HL2 HI E.
  destruct e.
  12: { destruct (Inv_resume M L f q s hasr s' HM HL2 HI E) as (PC & _ & [(_ & H & _)|(_ & ->)]); [assumption|]. now apply Inv_crash. }
  all: destruct HI as (HA & HB & HC); split; [|split];
    [eapply InvA_step; eauto; congruence|eapply InvB_step; eauto; congruence|intros Q; specialize (HC Q); eapply InvC_step; eauto; congruence].
Qed.

Lemma Inv_run M L f q es : forall s s', 16 < M < 2 ^ 31 -> M - 16 <= L -> L <= M -> Inv L f q s -> rrun M s es = Some s' -> Inv L f q s'.
Proof.
  induction es as [|e es IH]; intros s s' HM H1 H2 HI E; cbn [rrun] in E; [now injection E as <-|].
  destruct (step M s e) as [s1|] eqn:E1; [|discriminate]. apply (IH s1 s'); try assumption. eapply Inv_step; eauto.
Qed.

(* The panics: only a resume with an overlarge subscription. *)
Lemma crash_step M L f q s e s' : 16 < M < 2 ^ 31 -> M - 16 <= L -> L <= M -> Inv L f q s -> step M s e = Some s' ->
  pc s <> PCrash -> pc s' = PCrash -> (exists hasr, e = EResume hasr) /\ 2 ^ 31 <= subscribed s.
Proof.
  intros HM HL1 HL2 HI E N C. destruct e.
  12: { destruct (Inv_resume M L f q s hasr s' HM HL2 HI E) as (PC & _ & [(H0 & H & ->)|(? & ->)]).
    - rewrite start_nocrash in C; [discriminate|]. eapply state_of_ok; eauto; lia.
    - split; [now exists hasr|assumption]. }
  all: exfalso; destruct HI as (HA & HB & HC); unfold step in E.
  - destruct (_ || closed s); [discriminate|]. destruct (_ || _ || _); injection E as <-; now apply N.
  - destruct (_ || closed s); [discriminate|]. destruct (negb _); injection E as <-; now apply N.
  - destruct (poking s); [|discriminate]. injection E as <-; now apply N.
  - destruct (_ || closed s); [discriminate|]. injection E as <-; now apply N.
  - injection E as <-; now apply N.
  - destruct (pc s) eqn:PC; try discriminate; try (injection E as <-; simp; congruence).
    + destruct (_ || _) in E; injection E as <-; discriminate.
    + injection E as <-. simp. destruct (_ || _); discriminate.
    + destruct (r s); [destruct (_ =? _)|]; injection E as <-; discriminate.
  - destruct (pc s) eqn:PC; try discriminate. destruct (sending s) eqn:SG; [|discriminate].
    destruct HB as [_ _ _ _ B5 _ _ _ _]. rewrite PC in B5. destruct B5 as [B5 _]. destruct (B5 SG) as (_ & d & PK & _).
    rewrite PK in E. injection E as <-. simp. destruct (_ && _); discriminate.
  - destruct (pc s) eqn:PC; try discriminate; (destruct (token s); [|destruct (closed s); [|discriminate]]); injection E as <-; simp; try discriminate.
    destruct (_ && _); discriminate.
  - destruct (_ && _) in E; [|discriminate]. destruct (pc s) eqn:PC; try discriminate; injection E as <-; simp; try discriminate.
    destruct (_ && _) in C; discriminate.
  - destruct (pc s) eqn:PC; try discriminate. destruct (_ || _ || _); [discriminate|]. injection E as <-. discriminate.
  - destruct (pc s) eqn:PC; try discriminate. destruct (_ >? _); [discriminate|]. destruct e; injection E as <-; discriminate.
Qed.

(* What a history grants and what its reads return. *)
Fixpoint flow_granted (es : list rsev) : Z :=
  match es with
  | [] => 0
  | ESubscribe inc :: t => Z.max 0 inc + flow_granted t
  | _ :: t => flow_granted t
  end.
Fixpoint reader_bytes (es : list rsev) : bytes :=
  match es with
  | [] => []
  | ERead d _ :: t => d ++ reader_bytes t
  | _ :: t => reader_bytes t
  end.

Lemma step_ghost M s e s' : step M s e = Some s' ->
  src s' = src s ++ reader_bytes [e] /\ granted s' <= granted s + flow_granted [e].
Proof.
  intros E. destruct e; unfold step in E; cbn [reader_bytes flow_granted].
  - destruct (_ || closed s); [discriminate|]. destruct (_ || _ || _); injection E as <-; simp; rewrite app_nil_r; split; trivial; lia.
  - destruct (_ || closed s); [discriminate|]. destruct (negb _); injection E as <-; simp; rewrite app_nil_r; split; trivial; lia.
  - destruct (poking s); [|discriminate]. injection E as <-; simp; rewrite app_nil_r; split; trivial; lia.
  - destruct (_ || closed s); [discriminate|]. injection E as <-; simp; rewrite app_nil_r; split; trivial; lia.
  - injection E as <-; simp; rewrite app_nil_r; split; trivial; lia.
  - destruct (pc s); try discriminate.
    all: try (destruct (_ || _) in E); try (destruct (r s); [destruct (_ =? 0) in E|]); 
      injection E as <-; try (destruct (sub s)); simp; rewrite app_nil_r; split; trivial; lia.
  - destruct (pc s); try discriminate. destruct (sending s); [|discriminate]. destruct (pkt s); injection E as <-; simp; rewrite app_nil_r; split; trivial; lia.
  - destruct (pc s); try discriminate; (destruct (token s); [|destruct (closed s); [|discriminate]]); injection E as <-; simp; rewrite app_nil_r; split; trivial; lia.
  - destruct (_ && _) in E; [|discriminate]. destruct (pc s); try discriminate; injection E as <-; simp; rewrite app_nil_r; split; trivial; lia.
  - destruct (pc s); try discriminate. destruct (_ || _ || _); [discriminate|]. injection E as <-; simp; rewrite app_nil_r; split; trivial; lia.
  - destruct (pc s); try discriminate. destruct (_ >? _); [discriminate|]. rewrite app_nil_r. destruct e; injection E as <-; simp; split; trivial; lia.
  - destruct (poking s); [discriminate|]. destruct (pc s); try discriminate. destruct (resave _ _); injection E as <-; unfold start; simp; rewrite app_nil_r; split; trivial; lia.
Qed.

Lemma reader_bytes_cons e es : reader_bytes (e :: es) = reader_bytes [e] ++ reader_bytes es.
Proof. destruct e; cbn; rewrite ?app_nil_r; reflexivity. Qed.
Lemma flow_granted_cons e es : flow_granted (e :: es) = flow_granted [e] + flow_granted es.
Proof. destruct e; cbn; lia. Qed.

Lemma run_ghost M es : forall s s', rrun M s es = Some s' ->
  src s' = src s ++ reader_bytes es /\ granted s' <= granted s + flow_granted es.
Proof.
  induction es as [|e es IH]; intros s s' E; cbn [rrun] in E.
  - injection E as <-. cbn. rewrite app_nil_r. split; trivial; lia.
  - destruct (step M s e) as [s1|] eqn:E1; [|discriminate]. apply IH in E. apply step_ghost in E1.
    rewrite reader_bytes_cons, flow_granted_cons, app_assoc. destruct E as [-> E], E1 as [-> E1]. split; [reflexivity|lia].
Qed.

Lemma rrun_app M a : forall b s, rrun M s (a ++ b) = match rrun M s a with Some s' => rrun M s' b | None => None end.
Proof. induction a as [|e a IH]; intros b s; cbn [rrun app]; [reflexivity|]. destruct (step M s e); [apply IH|reflexivity]. Qed.

(* Progress: once the reader has ended, nothing but the receiver is needed. *)
Lemma progress M L f q s : Inv L f q s -> r s = false -> send s = true ->
  pc s <> PStop -> pc s <> PDone -> pc s <> PCrash ->
  exists es s', (length es <= 4)%nat /\ Forall (fun e => e = ETick \/ e = EAccept) es /\
    rrun M s es = Some s' /\ send s' = false /\ exists d, out s' = out s ++ [d].
Proof.
  intros (HA & HB & HC) RR SE N1 N2 N3.
  assert (SELB : forall s, pc s = PSelB -> sending s = true -> r s = false -> send s = true -> 
    (exists d, pkt s = Some d) -> exists s', rrun M s [EAccept] = Some s' /\ send s' = false /\ exists d, out s' = out s ++ [d]).
  { intros t P1 P2 P3 P4 [d P5]. cbn [rrun]. unfold step. rewrite P1, P2, P5.
    eexists. split; [reflexivity|]. simp. rewrite P3. split; [reflexivity|]. now exists d. }
  assert (CHK : forall s, pc s = PChk -> sending s = true -> r s = false -> send s = true -> 
    (exists d, pkt s = Some d) -> exists s', rrun M s [ETick; EAccept] = Some s' /\ send s' = false /\ exists d, out s' = out s ++ [d]).
  { intros t P1 P2 P3 P4 P5. change [ETick; EAccept] with ([ETick] ++ [EAccept]). rewrite rrun_app. cbn [rrun]. unfold step at 1. rewrite P1, P2, P3. cbn [orb].
    destruct (SELB (set_pc t PSelB)) as (s' & H); simp; try assumption; try reflexivity. exists s'. exact H. }
  assert (TOP : forall s, pc s = PTop -> r s = false -> send s = true -> 
    exists s', rrun M s [ETick; ETick; EAccept] = Some s' /\ send s' = false /\ exists d, out s' = out s ++ [d]).
  { intros t P1 P3 P4. change [ETick; ETick; EAccept] with ([ETick] ++ [ETick; EAccept]). rewrite rrun_app. cbn [rrun]. unfold step at 1. rewrite P1, P3, P4. cbn [orb andb negb].
    match goal with |- context [step M ?x ETick] => destruct (CHK x) as (s' & H) end; simp; try assumption; try reflexivity.
    - now rewrite orb_true_r.
    - rewrite andb_true_r. destruct (pkt t) as [[|b d]|]; cbn; eauto.
    - exists s'. exact H. }
  destruct HB as [_ _ _ _ B5 _ _ _ _].
  destruct (pc s) eqn:PC; try congruence.
  - exists [ETick; ETick; EAccept]. destruct (TOP s PC RR SE) as (s' & H). exists s'. split; [cbn; lia|]. split; [repeat constructor; tauto|exact H].
  - assert (SG : sending s = true) by (destruct (sending s); [reflexivity|destruct B5 as [_ B5]; destruct (B5 eq_refl) as [_ B6]; rewrite B6 in SE by assumption; discriminate]).
    destruct B5 as [B5 _]. destruct (B5 SG) as (_ & d & PK & _).
    exists [ETick; EAccept]. destruct (CHK s PC SG RR SE (ex_intro _ d PK)) as (s' & H). exists s'. split; [cbn; lia|]. split; [repeat constructor; tauto|exact H].
  - assert (SG : sending s = true) by (destruct (sending s); [reflexivity|destruct B5 as [_ B5]; destruct (B5 eq_refl) as [_ B6]; rewrite B6 in SE by assumption; discriminate]).
    destruct B5 as [B5 _]. destruct (B5 SG) as (_ & d & PK & _).
    exists [EAccept]. destruct (SELB s PC SG RR SE (ex_intro _ d PK)) as (s' & H). exists s'. split; [cbn; lia|]. split; [repeat constructor; tauto|exact H].
  - destruct B5 as (_ & B5 & _). congruence.
  - exists ([ETick] ++ [ETick; ETick; EAccept]). rewrite rrun_app. cbn [rrun]. unfold step at 1. rewrite PC, RR.
    destruct (TOP (set_pc s PTop)) as (s' & H); simp; try assumption; try reflexivity. exists s'.
    split; [cbn; lia|]. split; [repeat constructor; tauto|exact H].
  - destruct B5 as (B5 & _). congruence.
  - destruct B5 as (B5 & _). congruence.
  - destruct B5 as (B5 & _). congruence.
Qed.
