From Verif Require Import BaseLemmas ListLemmas ManifestProofs StorageSpec.
Local Arguments String.eqb : simpl never.
Local Open Scope Z_scope.

(* --- reading and writing --- *)
Lemma bytes_at_nth off bs i : (i < length bs)%nat -> bytes_at off bs (off + Z.of_nat i) = nth_error bs i.
Proof.
  intros H. unfold bytes_at. unfold len.
  destruct ((off + Z.of_nat i <? off) || (off + Z.of_nat (length bs) <=? off + Z.of_nat i)) eqn:E; [lia|].
  f_equal. lia.
Qed.
Lemma bytes_at_out off bs o : o < off \/ off + len bs <= o -> bytes_at off bs o = None.
Proof.
  intros H. unfold bytes_at. destruct ((o <? off) || (off + len bs <=? o)) eqn:E; [reflexivity|]. lia.
Qed.
Lemma bytes_at_in off bs o v : bytes_at off bs o = Some v -> In v bs.
Proof. unfold bytes_at. destruct (_ || _); [discriminate|]. apply nth_error_In. Qed.

Lemma map_seq_nth (bs : bytes) (f : nat -> Z) : (forall i, (i < length bs)%nat -> nth_error bs i = Some (f i)) ->
  map f (seq 0 (length bs)) = bs.
Proof.
  revert f. induction bs as [|b bs IH]; intros f H; [reflexivity|].
  cbn [length seq map]. f_equal.
  - specialize (H 0%nat ltac:(cbn; lia)). cbn in H. congruence.
  - rewrite <- seq_shift, map_map. apply IH. intros i Hi. apply (H (S i)). cbn. lia.
Qed.

Lemma read_at_app off a b g : read_at off (a + b) g = read_at off a g ++ read_at (off + Z.of_nat a) b g.
Proof.
  unfold read_at. rewrite seq_app, map_app. f_equal.
  rewrite <- (Nat.add_0_r (0 + a)). cbn [Nat.add].
  generalize 0%nat as k. induction b as [|b IH]; intros k; [reflexivity|].
  cbn [seq map]. f_equal; [f_equal; lia|].
  rewrite <- Nat.add_succ_r. apply IH.
Qed.
Lemma read_at_ext off n g h : (forall i, (i < n)%nat -> g (off + Z.of_nat i) = h (off + Z.of_nat i)) ->
  read_at off n g = read_at off n h.
Proof. intros H. unfold read_at. apply map_ext_in. intros i Hi. apply H. apply in_seq in Hi. lia. Qed.
Lemma read_at_bytes off n g : (forall o, off <= o < off + Z.of_nat n -> is_byte (g o)) -> is_bytes (read_at off n g).
Proof.
  intros H. unfold read_at, is_bytes. apply Forall_forall. intros x Hx. apply in_map_iff in Hx.
  destruct Hx as (i & <- & Hi). apply in_seq in Hi. apply H. lia.
Qed.
Lemma length_read_at off n g : length (read_at off n g) = n.
Proof. unfold read_at. rewrite map_length, seq_length. reflexivity. Qed.

Lemma read_written off bs n (s : file) : (length bs <= n)%nat ->
  read_at off n (cur (wset (bytes_at off bs) s)) =
  bs ++ read_at (off + Z.of_nat (length bs)) (n - length bs) (cur (wset (bytes_at off bs) s)).
Proof.
  intros H. replace n with (length bs + (n - length bs))%nat at 1 by lia.
  rewrite read_at_app. f_equal. unfold read_at. apply map_seq_nth. intros i Hi.
  cbn [cur wset]. rewrite bytes_at_nth by exact Hi.
  destruct (nth_error bs i) eqn:E; [reflexivity|]. apply nth_error_None in E. lia.
Qed.

(* --- validity --- *)
Lemma valid_ok m : man_valid m -> iman_ok m /\ few_breaks m.
Proof.
  unfold man_valid, iman_ok, few_breaks, u32_ok, u64_ok. intros (A & B & C & D & E & F & G & H & I & J).
  split.
  - repeat split; try lia.
    + destruct (m_start m); [exact H|exact Logic.I].
    + destruct (m_entry m); [exact I|exact Logic.I].
    + destruct (m_snap m) as [s|]; [|exact Logic.I]. cbn in J |- *. unfold snap_ok, u64_ok, s32_ok in *. intuition.
  - destruct (m_snap m) as [s|]; [|exact Logic.I]. cbn in J. intuition.
Qed.

Lemma load_written m (s : file) : man_valid m ->
  load_manifest (cur (wset (bytes_at instManifestOffset (manifest_bytes instanceFileTag (enc_inst m))) s)) = Ok m.
Proof.
  intros V. apply valid_ok in V as [OK FB]. unfold load_manifest.
  pose proof (enc_inst_len m OK FB) as L.
  rewrite read_written.
  2:{ unfold manifest_bytes. rewrite !app_length, !length_le. unfold ManifestMaxSize.
      apply Nat.le_trans with (4 + (4 + 1200))%nat; [lia|]. apply Nat.leb_le. reflexivity. }
  rewrite payload_bytes; [cbn [bind]; apply dec_inst_rt; assumption|split; reflexivity || discriminate|].
  unfold len. lia.
Qed.

Lemma load_ext g h : (forall o, instManifestOffset <= o -> g o = h o) -> load_manifest g = load_manifest h.
Proof.
  intros H. unfold load_manifest. rewrite (read_at_ext _ _ g h); [reflexivity|]. intros i _. apply H. lia.
Qed.

(* --- invariants --- *)
Definition linked (w : world) (n : string) : Prop := In (Some me) (disk (wdir w) n).
Definition unlinked (w : world) : Prop := forall n, ~ linked w n.
Definition durable (f : file) : Prop := forall o, disk f o = [cur f o].

Definition WF (w : world) : Prop :=
  (forall n, In (cur (wdir w) n) (disk (wdir w) n)) /\
  (forall o, dirty (wfile w) o = false -> disk (wfile w) o = [cur (wfile w) o]) /\
  (forall o, In (cur (wfile w) o) (disk (wfile w) o)) /\
  (forall o v, 0 <= o < instManifestOffset -> In v (disk (wfile w) o) -> is_byte v).
Definition Safe (g : option object) (w : world) : Prop :=
  WF w /\
  forall n, linked w n -> exists ob, g = Some ob /\ o_name ob = n /\ durable (wfile w) /\
    holds (cur (wfile w)) ob /\ man_valid (o_man ob) /\ n <> ""%string.
Definition HInv (w : world) : Prop :=
  (forall n, linked w n -> disk (wdir w) n = [Some me]) /\
  match hnd w with
  | None => True
  | Some i =>
      man_valid (man i) /\
      (manDirty i = false -> load_manifest (cur (wfile w)) = Ok (man i)) /\
      (iname i = ""%string -> unlinked w) /\
      (iname i <> ""%string -> hasDir i = true /\ coherent i = true /\ linked w (iname i))
  end.
Definition Inv (g : option object) (w : world) : Prop := Safe g w /\ HInv w.

Lemma survive_in {K V} (c : K -> nat) (s : wbs K V) k : In (cur s k) (disk s k) -> In (survive c s k) (disk s k).
Proof.
  intros H. unfold survive. destruct (Nat.ltb (c k) (length (disk s k))) eqn:E.
  - apply Nat.ltb_lt in E. apply nth_In, E.
  - apply Nat.ltb_ge in E. rewrite nth_overflow by exact E. exact H.
Qed.
Lemma survive_durable f c : durable f -> forall o, survive c f o = cur f o.
Proof.
  intros D o. assert (In (survive c f o) (disk f o)) as I by (apply survive_in; rewrite (D o); left; reflexivity).
  rewrite (D o) in I. destruct I as [<-|[]]. reflexivity.
Qed.
Lemma holds_ext g h ob : (forall o, g o = h o) -> holds h ob -> holds g ob.
Proof.
  intros E [A B]. split; [rewrite <- A; apply load_ext; auto|]. intros o Ho. rewrite E. auto.
Qed.

(* Hoare rule with a condition on every intermediate world. *)
Definition hoare (S P : world -> Prop) (a : M) (Q E : world -> Prop) : Prop :=
  forall w, P w -> match a w with
    | (t, w', Ok _) => Forall S t /\ Q w'
    | (t, w', _) => Forall S t /\ E w'
    end.
Lemma hoare_seq S P a R b Q E : hoare S P a R E -> hoare S R b Q E -> hoare S P (seqM a b) Q E.
Proof.
  intros A B w Pw. unfold seqM. specialize (A w Pw). destruct (a w) as [[t w1] [u| |]]; try exact A.
  destruct A as [A1 A2]. specialize (B w1 A2). destruct (b w1) as [[t' w2] [u'| |]]; destruct B as [B1 B2];
    split; auto; apply Forall_app; auto.
Qed.
Lemma hoare_weak S P a Q E (P' Q' E' : world -> Prop) : hoare S P a Q E -> (forall w, P' w -> P w) -> (forall w, Q w -> Q' w) ->
  (forall w, E w -> E' w) -> hoare S P' a Q' E'.
Proof.
  intros A p q e w Pw. specialize (A w (p w Pw)). destruct (a w) as [[t w1] [u| |]]; destruct A; split; auto.
Qed.
Lemma hoare_on_inst S (P : world -> Prop) k Q E :
  (forall i, hoare S (fun w => P w /\ hnd w = Some i) (k i) Q E) ->
  (forall w, P w -> hnd w = None -> Q w) -> hoare S P (on_inst k) Q E.
Proof.
  intros A B w Pw. unfold on_inst. destruct (hnd w) as [i|] eqn:H.
  - apply (A i w). auto.
  - unfold ret. split; [constructor|apply B; auto].
Qed.

Lemma WF_file_set w bs off : WF w -> is_bytes bs \/ instManifestOffset <= off ->
  WF (set_file (wset (bytes_at off bs)) w).
Proof.
  intros (A & B & C & D) H. unfold WF, set_file. cbn [wfile wdir cur disk dirty wset].
  split; [exact A|]. split; [|split].
  - intros o. destruct (bytes_at off bs o); [discriminate|apply B].
  - intros o. destruct (bytes_at off bs o); [left; reflexivity|apply C].
  - intros o v Ho Hv. destruct (bytes_at off bs o) eqn:E; [|eapply D; eauto].
    destruct Hv as [<-|Hv]; [|eapply D; eauto].
    destruct H as [H|H].
    + apply (proj1 (Forall_forall _ _) H z). eapply bytes_at_in; eauto.
    + rewrite bytes_at_out in E by lia. discriminate.
Qed.
Lemma WF_sync w : WF w -> WF (set_file wsync w) /\ durable (wfile (set_file wsync w)).
Proof.
  intros (A & B & C & D). assert (DU : durable (wsync (wfile w))).
  { intros o. cbn [wsync disk cur]. destruct (dirty (wfile w) o) eqn:E; [reflexivity|apply B, E]. }
  split; [|exact DU]. unfold WF, set_file. cbn [wfile wdir].
  split; [exact A|]. split; [intros o _; apply DU|]. split; [intros o; rewrite DU; left; reflexivity|].
  intros o v Ho I. rewrite DU in I. destruct I as [<-|[]]. cbn [wsync cur]. eapply D; eauto.
Qed.
Lemma WF_dir_set w n v : WF w -> WF (set_dir (wset (entry n v)) w).
Proof.
  intros (A & B & C & D). unfold WF, set_dir. cbn [wfile wdir]. split; [|auto].
  intros k. cbn [wset cur disk]. unfold entry. destruct (String.eqb n k); [left; reflexivity|apply A].
Qed.
Lemma WF_dir_sync w fault : WF w -> WF (set_dir (if fault : bool then wfail else wsync) w).
Proof.
  intros (A & B & C & D). unfold WF, set_dir. cbn [wfile wdir]. split; [|auto].
  intros k. destruct fault; cbn [wsync wfail cur disk]; [apply A|].
  destruct (dirty (wdir w) k); [left; reflexivity|apply A].
Qed.
Lemma linked_dir_sync w fault n : WF w -> linked (set_dir (if fault : bool then wfail else wsync) w) n -> linked w n.
Proof.
  intros (A & _). unfold linked, set_dir. cbn [wdir]. destruct fault; cbn [wfail wsync disk]; [auto|].
  destruct (dirty (wdir w) n); [|auto]. intros [E|[]]. rewrite <- E. apply A.
Qed.
Lemma linked_set w n v k : linked (set_dir (wset (entry n v)) w) k -> (n = k /\ v = Some me) \/ linked w k.
Proof.
  unfold linked, set_dir. cbn [wdir wset disk]. unfold entry. destruct (String.eqb n k) eqn:E; [|auto].
  apply String.eqb_eq in E. subst. intros [H|H]; auto.
Qed.
Lemma WF_hnd w h : WF w -> WF (set_hnd h w). Proof. auto. Qed.

(* --- Store --- *)
Lemma manifest_area_body bs (f : file) o : o < instManifestOffset -> cur (wset (bytes_at instManifestOffset bs) f) o = cur f o.
Proof. intros H. cbn [wset cur]. rewrite bytes_at_out by lia. reflexivity. Qed.

Section StoreProof.
  Context (name : string) (fl : faults) (m : iman) (body : Z -> Z) (NF : no_fault fl) (V : man_valid m).
  Let ob := Object name m body.
  Let agree (w : world) : Prop := forall o, 0 <= o < instManifestOffset -> cur (wfile w) o = body o.
  Let S := Safe (Some ob).
  Let HV (w : world) : Prop := exists i, hnd w = Some i /\ man i = m /\ coherent i = true /\ iname i = ""%string /\
     (manDirty i = false -> load_manifest (cur (wfile w)) = Ok m).
  Let P0 (w : world) : Prop := WF w /\ unlinked w /\ agree w /\ HV w.
  Let P1 (w : world) : Prop := P0 w /\ exists i, hnd w = Some i /\ manDirty i = false.
  Let P2 (w : world) : Prop := P1 w /\ durable (wfile w).
  Let P3 (w : world) : Prop := S w /\ holds (cur (wfile w)) ob /\ cur (wdir w) name = Some me /\ dirty (wdir w) name = true /\
     (forall n, linked w n -> n = name) /\ name <> ""%string /\
     exists i, hnd w = Some i /\ man i = m /\ coherent i = true /\ iname i = ""%string /\ manDirty i = false.

  Lemma safe_unlinked g w : WF w -> unlinked w -> Safe g w.
  Proof. intros A U. split; [exact A|]. intros n L. destruct (U n L). Qed.
  Lemma P0_inv w : P0 w -> Inv (Some ob) w.
  Proof.
    intros (A & U & B & i & H & E & C & N & D). split; [apply safe_unlinked; auto|]. split; [intros n L; destruct (U n L)|].
    rewrite H. rewrite E. split; [exact V|]. split; [exact D|]. split; [auto|]. congruence.
  Qed.

  Lemma store_hoare : hoare S P0 (storeInstance name fl)
    (fun w => Inv (Some ob) w /\ disk (wdir w) name = [Some me] /\
       exists i, hnd w = Some i /\ man i = m /\ iname i = name /\ load_manifest (cur (wfile w)) = Ok m) (Inv (Some ob)).
  Proof.
    destruct NF as (N1 & N2 & N3). unfold storeInstance.
    apply hoare_seq with P1.
    { apply hoare_on_inst.
      2:{ intros w (_ & _ & _ & i & H & _) H'. congruence. }
      intros i. destruct (manDirty i) eqn:MD.
      - intros w [PW H]. pose proof PW as (A & U & B & i' & H' & E & C & N & D).
        assert (i' = i) by congruence; subst i'.
        unfold seqM, sys_write, sys. destruct (f_write fl) as [k|].
        + split; [constructor; [|constructor]|].
          * apply safe_unlinked; [apply WF_file_set; [exact A|right; lia]|exact U].
          * apply P0_inv. split; [apply WF_file_set; [exact A|right; lia]|]. split; [exact U|].
            split; [intros o Ho; unfold set_file; cbn [wfile]; rewrite manifest_area_body by lia; apply B, Ho|].
            exists i. cbn [hnd set_file]. repeat split; auto. congruence.
        + cbn [assign]. unfold set_hnd, set_file; cbn [wfile wdir hnd]. rewrite H.
          split; [constructor; [|constructor]|].
          * apply safe_unlinked; [apply (WF_file_set w); [exact A|right; lia]|exact U].
          * split.
            { split; [apply (WF_file_set w _ instManifestOffset A); right; lia|]. split; [exact U|].
              split; [intros o Ho; cbn [wfile]; rewrite manifest_area_body by lia; apply B, Ho|].
              eexists. split; [reflexivity|]. cbn [man coherent iname manDirty wfile]. repeat split; auto.
              intros _. rewrite E. apply load_written, V. }
            { eexists. split; [reflexivity|]. reflexivity. }
      - intros w [PW H]. unfold ret. split; [constructor|]. split; [exact PW|]. exists i. auto. }
    apply hoare_seq with P2.
    { intros w [PW (i & H & MD)]. pose proof PW as (A & U & B & i' & H' & E & C & N & D).
      assert (i' = i) by congruence; subst i'.
      unfold sys_sync, sys. rewrite N1. destruct (WF_sync w A) as [A' DU].
      assert (PW' : P0 (set_file wsync w)).
      { split; [exact A'|]. split; [exact U|]. split; [exact B|]. exists i. repeat split; auto. }
      split; [constructor; [apply safe_unlinked; [exact A'|exact U]|constructor]|].
      split; [split; [exact PW'|exists i; split; [exact H|exact MD]]|exact DU]. }
    apply hoare_seq with P3.
    { intros w [[PW (i & H & MD)] DU]. pose proof PW as (A & U & B & i' & H' & E & C & N & D).
      assert (i' = i) by congruence; subst i'.
      unfold sys_link, sys. destruct (f_link fl || String.eqb name "") eqn:FL.
      { split; [constructor; [apply safe_unlinked; auto|constructor]|apply P0_inv, PW]. }
      apply orb_false_iff in FL as [_ NN]. apply String.eqb_neq in NN.
      destruct (cur (wdir w) name) as [k|] eqn:CU.
      { split; [constructor; [apply safe_unlinked; auto|constructor]|apply P0_inv, PW]. }
      assert (HO : holds (cur (wfile w)) ob) by (split; [apply D, MD|exact B]).
      assert (SW : S (set_dir (wset (entry name (Some me))) w)).
      { split; [apply WF_dir_set, A|]. intros n L. apply linked_set in L as [[-> _]|L]; [|destruct (U n L)].
        exists ob. split; [reflexivity|]. split; [reflexivity|]. split; [exact DU|]. split; [exact HO|]. split; [exact V|exact NN]. }
      split; [constructor; [exact SW|constructor]|].
      split; [exact SW|]. split; [exact HO|].
      split; [cbn [set_dir wdir wset cur]; unfold entry; rewrite String.eqb_refl; reflexivity|].
      split; [cbn [set_dir wdir wset dirty]; unfold entry; rewrite String.eqb_refl; reflexivity|].
      split; [intros n L; apply linked_set in L as [[-> _]|L]; [reflexivity|destruct (U n L)]|].
      split; [exact NN|]. exists i. repeat split; auto. }
    set (P4 := fun w => S w /\ holds (cur (wfile w)) ob /\ disk (wdir w) name = [Some me] /\
       (forall n, linked w n -> n = name) /\ name <> ""%string /\
       exists i, hnd w = Some i /\ man i = m /\ coherent i = true /\ manDirty i = false).
    apply hoare_seq with P4.
    { intros w PW. pose proof PW as (SW & HO & CU & DI & UL & NN & i & H & E & C & N & MD).
      unfold sys_dirsync, sys. rewrite N3.
      assert (A' : WF (set_dir wsync w)) by apply (WF_dir_sync w false (proj1 SW)).
      assert (LS : forall n, linked (set_dir wsync w) n -> linked w n) by (intros n; apply (linked_dir_sync w false n (proj1 SW))).
      assert (SW' : S (set_dir wsync w)).
      { split; [exact A'|]. intros n L. apply (proj2 SW). apply LS, L. }
      split; [constructor; [exact SW'|constructor]|].
      split; [exact SW'|]. split; [exact HO|].
      split; [cbn [set_dir wdir wsync disk]; rewrite DI, CU; reflexivity|].
      split; [intros n L; apply UL, LS, L|]. split; [exact NN|]. exists i. auto. }
    intros w (SW & HO & DI & UL & NN & i & H & E & C & MD).
    unfold assign. rewrite H. split; [constructor|]. split; [split|split].
    - exact SW.
    - split.
      + intros n L. rewrite (UL n L). exact DI.
      + cbn [set_hnd hnd man manDirty iname hasDir coherent]. rewrite E.
        split; [exact V|]. split; [intros _; apply HO|]. split; [congruence|].
        intros _. split; [reflexivity|]. split; [exact C|]. unfold linked. cbn [set_hnd wdir]. rewrite DI. left. reflexivity.
    - exact DI.
    - eexists. split; [reflexivity|]. cbn [man iname]. split; [exact E|]. split; [reflexivity|]. apply HO.
  Qed.
End StoreProof.

(* --- Unstore and BeginMutation --- *)
Lemma unstore_hoare g fl : no_fault fl ->
  hoare (Safe g) (Inv g) (Unstore fl)
    (fun w => Inv g w /\ (forall i, hnd w = Some i -> iname i = ""%string)) (fun _ => False).
Proof.
  intros (N1 & N2 & N3). unfold Unstore. apply hoare_on_inst.
  2:{ intros w IW H. split; [exact IW|]. intros i Hi. congruence. }
  intros i w [IW H]. pose proof IW as [SW [HS HI]]. rewrite H in HI. destruct HI as (V & MD & U & L).
  destruct (String.eqb (iname i) "") eqn:EN.
  { apply String.eqb_eq in EN. unfold ret. split; [constructor|]. split; [exact IW|]. intros j Hj. congruence. }
  apply String.eqb_neq in EN. destruct (L EN) as (HD & CO & LK). rewrite HD. cbn [negb].
  pose proof (HS _ LK) as DK.
  assert (CU : cur (wdir w) (iname i) = Some me).
  { pose proof (proj1 (proj1 SW) (iname i)) as Q. rewrite DK in Q. destruct Q as [<-|[]]. reflexivity. }
  assert (ONLY : forall n, linked w n -> n = iname i).
  { intros n Ln. destruct (proj2 SW n Ln) as (ob & G & <- & _). destruct (proj2 SW _ LK) as (ob' & G' & <- & _). congruence. }
  unfold seqM, assign, sys_unlink, sys_dirsync, sys. rewrite H, N2, N3. cbn [set_hnd wdir hnd wfile]. rewrite CU.
  set (w1 := World (wfile w) (wdir w) (Some (Inst (man i) (manDirty i) (coherent i) false ""))).
  set (w2 := set_dir (wset (entry (iname i) None)) w1).
  set (w3 := set_dir wsync w2).
  assert (WF1 : WF w1) by apply (proj1 SW).
  assert (WF2 : WF w2) by (apply WF_dir_set; exact WF1).
  assert (WF3 : WF w3) by apply (WF_dir_sync w2 false WF2).
  assert (S2 : Safe g w2).
  { split; [exact WF2|]. intros n Ln. apply linked_set in Ln as [[_ E]|Ln]; [discriminate|]. apply (proj2 SW n Ln). }
  assert (U3 : unlinked w3).
  { intros n Ln. pose proof (linked_dir_sync w2 false n WF2 Ln) as L2.
    apply linked_set in L2 as [[_ E]|L2]; [discriminate|]. pose proof (ONLY n L2) as ->.
    unfold linked, w3, w2, w1, set_dir in Ln. cbn [wdir wsync wset disk dirty cur] in Ln.
    unfold entry in Ln. rewrite String.eqb_refl in Ln. destruct Ln as [E|[]]. discriminate. }
  cbn [app]. split.
  - constructor; [exact S2|constructor; [|constructor]]. apply safe_unlinked; assumption.
  - split.
    + split; [apply safe_unlinked; assumption|]. split; [intros n Ln; destruct (U3 n Ln)|].
      cbn [w3 w2 w1 set_dir hnd man manDirty iname]. split; [exact V|]. split; [exact MD|]. split; [auto|intros E; destruct (E eq_refl)].
    + intros j Hj. cbn in Hj. injection Hj as <-. reflexivity.
Qed.

Lemma begin_hoare g fl : no_fault fl ->
  hoare (Safe g) (Inv g) (BeginMutation fl)
    (fun w => Inv g w /\ (forall i, hnd w = Some i -> iname i = ""%string)) (Inv g).
Proof.
  intros NF. unfold BeginMutation. apply hoare_on_inst.
  2:{ intros w IW H. split; [exact IW|]. intros i Hi. congruence. }
  intros i. destruct (negb (coherent i)).
  { intros w [IW H]. unfold fail. split; [constructor|exact IW]. }
  eapply hoare_seq.
  - eapply hoare_weak; [apply (unstore_hoare g fl NF)| | |].
    + intros w [IW _]. exact IW.
    + intros w Q. exact Q.
    + intros w [].
  - intros w [[SW [HS HI]] EN]. unfold assign. split; [constructor|].
    destruct (hnd w) as [j|] eqn:H.
    + cbn [set_hnd hnd]. pose proof (EN j eq_refl) as E. split.
      * split; [exact SW|]. split; [exact HS|]. cbn [set_hnd hnd man manDirty iname].
        destruct HI as (V & MD & U & L). split; [exact V|]. split; [exact MD|]. split; [exact U|congruence].
      * intros k Hk. injection Hk as <-. exact E.
    + split; [split; [exact SW|split; [exact HS|exact Logic.I]]|]. cbn. discriminate.
Qed.

(* --- manifest updates --- *)
Lemma snapshot_of_valid m : man_valid m -> snap_valid (Some (snapshot_of m)).
Proof.
  intros (_ & _ & _ & _ & _ & _ & _ & _ & _ & J). unfold snapshot_of. destruct (m_snap m); [exact J|].
  cbn. unfold u64_ok, s32_ok. repeat split; try lia; constructor.
Qed.
Lemma with_snap_valid m s : man_valid m -> snap_valid (Some s) -> man_valid (with_snap m s).
Proof. unfold man_valid, with_snap. cbn. intuition. Qed.

Lemma lor_bound a b : u64_ok a -> u64_ok b -> u64_ok (Z.lor a b).
Proof.
  unfold u64_ok. intros [A A'] [B B'].
  assert (N : 0 <= Z.lor a b) by (apply Z.lor_nonneg; auto). split; [exact N|].
  destruct (Z.eq_dec (Z.lor a b) 0) as [->|NZ]; [lia|].
  apply Z.log2_lt_pow2; [lia|]. rewrite Z.log2_lor by assumption.
  destruct (Z.eq_dec a 0) as [->|NA]; destruct (Z.eq_dec b 0) as [->|NB];
    try (cbn; lia); apply Z.max_lub_lt;
    first [apply Z.log2_lt_pow2; lia | cbn; lia].
Qed.
Lemma ldiff_bound a b : u64_ok a -> 0 <= b -> u64_ok (Z.ldiff a b).
Proof.
  unfold u64_ok. intros [A A'] B.
  assert (N : 0 <= Z.ldiff a b) by (apply Z.ldiff_nonneg; auto). split; [exact N|].
  assert (E : Z.ldiff (Z.ldiff a b) a = 0).
  { apply Z.bits_inj'. intros n Hn. rewrite !Z.ldiff_spec, Z.bits_0. destruct (Z.testbit a n), (Z.testbit b n); reflexivity. }
  pose proof (Z.ldiff_le (Z.ldiff a b) a A E). lia.
Qed.

Definition setter_ok (f : inst -> inst) : Prop := forall i, man_valid (man i) ->
  man_valid (man (f i)) /\ coherent (f i) = coherent i /\ hasDir (f i) = hasDir i /\ iname (f i) = iname i /\
  (f i = i \/ manDirty (f i) = true).
Lemma with_snap_setter i s : man_valid (man i) -> snap_valid (Some s) ->
  let j := with_man i (with_snap (man i) s) in
  man_valid (man j) /\ coherent j = coherent i /\ hasDir j = hasDir i /\ iname j = iname i /\ (j = i \/ manDirty j = true).
Proof. intros V SV. cbn. split; [apply with_snap_valid; assumption|]. auto. Qed.

Lemma set_flags_ok i fl : man_valid (man i) -> u64_ok fl ->
  man_valid (man (set_flags i fl)) /\ coherent (set_flags i fl) = coherent i /\ hasDir (set_flags i fl) = hasDir i /\
  iname (set_flags i fl) = iname i /\ (set_flags i fl = i \/ manDirty (set_flags i fl) = true).
Proof.
  intros V F. pose proof (snapshot_of_valid _ V) as SV. unfold set_flags. destruct (_ =? fl); [auto 10|].
  apply with_snap_setter; [exact V|]. cbn in SV |- *. intuition.
Qed.
Lemma SetFinal_ok : setter_ok SetFinal.
Proof.
  intros i V. apply set_flags_ok; [exact V|]. apply lor_bound; [apply (snapshot_of_valid _ V)|unfold u64_ok; lia].
Qed.
Lemma SetDebugInfo_ok b : setter_ok (SetDebugInfo b).
Proof.
  intros i V. apply set_flags_ok; [exact V|]. pose proof (proj1 (snapshot_of_valid _ V)) as F.
  destruct b; [apply lor_bound; [exact F|unfold u64_ok; lia]|apply ldiff_bound; [exact F|lia]].
Qed.
Lemma SetTrap_ok x : s32_ok x -> setter_ok (SetTrap x).
Proof.
  intros H i V. pose proof (snapshot_of_valid _ V) as SV. unfold SetTrap. destruct (_ =? x); [auto 10|].
  apply with_snap_setter; [exact V|]. cbn in SV |- *. intuition.
Qed.
Lemma SetResult_ok x : s32_ok x -> setter_ok (SetResult x).
Proof.
  intros H i V. pose proof (snapshot_of_valid _ V) as SV. unfold SetResult. destruct (_ =? x); [auto 10|].
  apply with_snap_setter; [exact V|]. cbn in SV |- *. intuition.
Qed.
Lemma SetBreakpoints_ok l : Forall u64_ok l -> (length l <= 100)%nat -> setter_ok (SetBreakpoints l).
Proof.
  intros H L i V. pose proof (snapshot_of_valid _ V) as SV. unfold SetBreakpoints. destruct (same_list _ l); [auto 10|].
  apply with_snap_setter; [exact V|]. cbn in SV |- *. intuition.
Qed.

Lemma assign_inv g f : setter_ok f -> hoare (Safe g) (Inv g) (assign f) (Inv g) (Inv g).
Proof.
  intros SO w [SW [HS HI]]. unfold assign. split; [constructor|]. split; [exact SW|]. split; [exact HS|].
  cbn [set_hnd hnd]. destruct (hnd w) as [i|]; [|exact Logic.I].
  destruct HI as (V & MD & U & L). destruct (SO i V) as (V' & C & D & N & E). split; [exact V'|].
  split; [intros F; destruct E as [E|E]; [rewrite E in *; apply MD, F|congruence]|].
  rewrite N. split; [exact U|]. rewrite C, D. exact L.
Qed.

(* --- CheckMutation --- *)
Lemma unle_read off n (f : Z -> Z) : (forall o, 0 <= o < instManifestOffset -> is_byte (f o)) -> 0 <= off -> off + Z.of_nat n <= 64 ->
  0 <= unle (read_at off n f) < 256 ^ Z.of_nat n.
Proof.
  intros B O L. pose proof (unle_bound (read_at off n f)) as U. rewrite length_read_at in U. apply U.
  apply read_at_bytes. intros o Ho. apply B. unfold instManifestOffset. lia.
Qed.

Lemma mutated_valid m f : man_valid m -> (forall o, 0 <= o < instManifestOffset -> is_byte (f o)) ->
  checkStack (read_vars f) (m_stack_size m) = true -> v_unused (read_vars f) <> 0 ->
  man_valid (mutated_man m (read_vars f)).
Proof.
  intros V B CS NZ. pose proof (snapshot_of_valid _ V) as SV.
  assert (T : u64_ok (v_text (read_vars f))) by (apply (unle_read 24 8 f B); lia).
  assert (TI : u64_ok (v_time (read_vars f))) by (apply (unle_read 8 8 f B); lia).
  assert (UN : u32_ok (v_unused (read_vars f))) by (apply (unle_read 0 4 f B); lia).
  assert (LE : v_unused (read_vars f) <= m_stack_size m).
  { unfold checkStack in CS. destruct (v_unused (read_vars f) =? 0) eqn:E; [lia|].
    apply negb_true_iff in CS. rewrite !orb_false_iff in CS. lia. }
  destruct V as (V1 & V2 & V3 & V4 & V5 & V6 & V7 & V8 & V9 & V10).
  generalize dependent (read_vars f). intros v CS NZ T TI UN LE. clear CS.
  unfold man_valid, mutated_man.
  cbn [m_text m_stack_size m_stack_usage m_globals m_memory m_max_memory m_init m_start m_entry m_snap func_valid].
  split; [destruct (_ =? _); [unfold u64_ok; lia|exact T]|].
  split; [exact V2|]. split; [unfold u32_ok in *; destruct (_ =? _); lia|].
  split; [exact V4|]. split; [apply u32_bound|]. split; [exact V6|].
  split; [unfold u32_ok, TextAddrEnter, TextAddrResume; destruct (_ =? _); lia|].
  split; [exact Logic.I|]. split; [exact Logic.I|]. cbn in SV |- *. intuition.
Qed.

Lemma WF_cur_byte w : WF w -> forall o, 0 <= o < instManifestOffset -> is_byte (cur (wfile w) o).
Proof. intros (_ & _ & C & D) o H. eapply D; eauto. Qed.

Lemma check_hoare g : hoare (Safe g) (Inv g) CheckMutation (Inv g) (Inv g).
Proof.
  unfold CheckMutation. apply hoare_on_inst; [|auto]. intros i w [IW H].
  pose proof IW as [SW [HS HI]]. rewrite H in HI. destruct HI as (V & MD & U & L).
  destruct (coherent i) eqn:CO; [unfold ret; split; [constructor|exact IW]|].
  destruct (negb (checkStack _ _)) eqn:CS; [unfold fail; split; [constructor|exact IW]|].
  apply negb_false_iff in CS.
  assert (EN : iname i = ""%string).
  { destruct (string_dec (iname i) ""%string) as [E|E]; [exact E|]. destruct (L E) as (_ & C & _). congruence. }
  destruct (v_unused (read_vars (cur (wfile w))) =? 0) eqn:Z0; unfold assign; rewrite H;
    (split; [constructor|]); (split; [exact SW|]); (split; [exact HS|]); cbn [set_hnd hnd man manDirty iname wfile].
  - split; [exact V|]. split; [exact MD|]. split; [exact U|congruence].
  - split; [apply mutated_valid; [exact V|apply WF_cur_byte, SW|exact CS|lia]|].
    split; [discriminate|]. split; [exact U|congruence].
Qed.

(* --- all events --- *)
Lemma crash_survive_dir w cd n : WF w -> survive cd (wdir w) n = Some me -> linked w n.
Proof. intros (A & _) E. unfold linked. rewrite <- E. apply survive_in, A. Qed.

Lemma hoare_step S P e (Q E : world -> Prop) w : hoare S P (exec e) Q E -> P w ->
  Forall S (between e w) /\ (result e w = Ok tt -> Q (after e w)) /\ (result e w <> Ok tt -> E (after e w)).
Proof.
  intros H Pw. specialize (H w Pw). unfold between, after, result. destruct (exec e w) as [[t w'] [[]| |]]; cbn [fst snd];
    destruct H as [H1 H2]; repeat split; auto; congruence.
Qed.

Definition offered_store name w i : option object := Some (Object name (man i) (cur (wfile w))).

Lemma store_step g w name fl : Inv g w -> no_fault fl ->
  Forall (Safe (offer (EStore name fl) w g)) (between (EStore name fl) w) /\
  Inv (offer (EStore name fl) w g) (after (EStore name fl) w) /\
  (result (EStore name fl) w = Ok tt -> hnd w <> None ->
   exists i, hnd w = Some i /\ coherent i = true /\ iname i = ""%string /\
   disk (wdir (after (EStore name fl) w)) name = [Some me] /\
   exists j, hnd (after (EStore name fl) w) = Some j /\ man j = man i /\ iname j = name /\
     load_manifest (cur (wfile (after (EStore name fl) w))) = Ok (man i)).
Proof.
  intros IW NF. pose proof IW as [SW [HS HI]]. unfold between, after, result, offer. cbn [exec].
  unfold Store, on_inst. destruct (hnd w) as [i|] eqn:H.
  2:{ cbn. split; [constructor|]. split; [exact IW|]. congruence. }
  destruct HI as (V & MD & U & L).
  destruct (coherent i) eqn:CO; cbn [negb andb].
  2:{ cbn. split; [constructor|]. split; [exact IW|]. discriminate. }
  destruct (String.eqb (iname i) "") eqn:EN; cbn [negb].
  2:{ cbn. split; [constructor|]. split; [exact IW|]. discriminate. }
  apply String.eqb_eq in EN.
  pose proof (store_hoare name fl (man i) (cur (wfile w)) NF V w) as HH.
  cbn beta in HH.
  assert (PRE : WF w /\ unlinked w /\ (forall o, 0 <= o < instManifestOffset -> cur (wfile w) o = cur (wfile w) o) /\
     exists i0, hnd w = Some i0 /\ man i0 = man i /\ coherent i0 = true /\ iname i0 = ""%string /\
     (manDirty i0 = false -> load_manifest (cur (wfile w)) = Ok (man i))).
  { split; [apply SW|]. split; [apply U, EN|]. split; [reflexivity|]. exists i. auto. }
  specialize (HH PRE). destruct (storeInstance name fl w) as [[t w'] [[]| |]]; cbn [fst snd].
  - destruct HH as (F & I' & DK & j & HJ & MJ & NJ & LJ). split; [exact F|]. split; [exact I'|].
    intros _ _. exists i. split; [reflexivity|]. split; [exact CO|]. split; [exact EN|]. split; [exact DK|].
    exists j. auto.
  - destruct HH as (F & I'). split; [exact F|]. split; [exact I'|]. discriminate.
  - destruct HH as (F & I'). split; [exact F|]. split; [exact I'|]. discriminate.
Qed.

Lemma step_inv g w e : Inv g w -> clean e ->
  Forall (Safe (offer e w g)) (between e w) /\ Inv (offer e w g) (after e w).
Proof.
  intros IW CL.
  assert (R : forall Q E, hoare (Safe g) (Inv g) (exec e) Q E -> offer e w g = g ->
     (forall x, Q x -> Inv g x) -> (forall x, E x -> Inv g x) ->
     Forall (Safe (offer e w g)) (between e w) /\ Inv (offer e w g) (after e w)).
  { intros Q E HH -> q ee. destruct (hoare_step _ _ _ _ _ w HH IW) as (A & B & C). split; [exact A|].
    destruct (result e w) as [[]| |]; [apply q, B; reflexivity|apply ee, C; discriminate|apply ee, C; discriminate]. }
  pose proof IW as [SW [HS HI]].
  destruct e; cbn [clean] in CL.
  - destruct (store_step g w name f IW CL) as (A & B & _). auto.
  - eapply R; [apply (unstore_hoare g f CL)|reflexivity|intros x [Q _]; exact Q|intros x []].
  - eapply R; [apply (assign_inv g _ SetFinal_ok)|reflexivity|auto|auto].
  - eapply R; [apply (assign_inv g _ (SetDebugInfo_ok b))|reflexivity|auto|auto].
  - eapply R; [apply (assign_inv g _ (SetTrap_ok id CL))|reflexivity|auto|auto].
  - eapply R; [apply (assign_inv g _ (SetResult_ok n CL))|reflexivity|auto|auto].
  - eapply R; [apply (assign_inv g _ (SetBreakpoints_ok l (proj1 CL) (proj2 CL)))|reflexivity|auto|auto].
  - eapply R; [apply (begin_hoare g f CL)|reflexivity|intros x [Q _]; exact Q|auto].
  - (* EMutate *)
    unfold between, after, offer. cbn [exec]. unfold running.
    destruct (hnd w) as [i|] eqn:H; [|cbn; split; [constructor|exact IW]].
    destruct (negb (coherent i) && (0 <=? off) && (off + len bs <=? instManifestOffset)) eqn:G;
      [|cbn; split; [constructor|exact IW]].
    apply andb_prop in G as [G G3]. apply andb_prop in G as [G1 G2].
    destruct HI as (V & MD & U & L).
    assert (EN : iname i = ""%string).
    { destruct (string_dec (iname i) ""%string) as [E|E]; [exact E|]. destruct (L E) as (_ & C & _). rewrite C in G1. discriminate. }
    assert (BY : is_bytes (map u8 bs)).
    { apply Forall_forall. intros x Hx. apply in_map_iff in Hx as (y & <- & _). unfold is_byte, u8. apply Z.mod_pos_bound. lia. }
    assert (WF' : WF (set_file (wset (bytes_at off (map u8 bs))) w)) by (apply WF_file_set; [apply SW|left; exact BY]).
    assert (UL : unlinked (set_file (wset (bytes_at off (map u8 bs))) w)) by (apply (U EN)).
    cbn [fst snd sys_write sys].
    split; [constructor; [apply safe_unlinked; assumption|constructor]|].
    split; [apply safe_unlinked; assumption|]. split; [intros n Ln; destruct (UL n Ln)|].
    cbn [set_file hnd wfile]. rewrite H. split; [exact V|].
    split; [|split; [intros _; exact UL|congruence]].
    intros D. rewrite <- (MD D). apply load_ext. intros o Ho. cbn [wset cur]. rewrite bytes_at_out; [reflexivity|].
    right. unfold len in *. rewrite map_length. lia.
  - eapply R; [apply (check_hoare g)|reflexivity|auto|auto].
  - (* EClose *) unfold between, after, offer. cbn. split; [constructor|].
    split; [exact SW|]. split; [exact HS|]. exact Logic.I.
  - (* ELoad *)
    unfold between, after, offer. cbn [exec]. unfold LoadInstance.
    destruct (hnd w) as [i|] eqn:H; [cbn; split; [constructor|exact IW]|].
    destruct (cur (wdir w) name) as [[|k]|] eqn:CU; try (cbn; split; [constructor|exact IW]).
    assert (LK : linked w name) by (unfold linked; change (Some me) with (Some 0%nat); rewrite <- CU; apply SW).
    destruct (proj2 SW name LK) as (ob & G & ON & DU & [LD BO] & OV & NN). rewrite LD. cbn [fst snd].
    split; [constructor|]. split; [exact SW|]. split; [exact HS|]. cbn [set_hnd hnd man manDirty iname hasDir coherent wfile].
    split; [exact OV|]. split; [intros _; exact LD|]. split; [congruence|]. auto.
  - (* EEnvLink *)
    unfold between, after, offer. cbn [exec].
    destruct (cur (wdir w) name) as [k|] eqn:CU; [cbn; split; [constructor|exact IW]|].
    destruct n as [|n]; [cbn; split; [constructor|exact IW]|].
    cbn [sys fst snd].
    assert (LS : forall x, linked (set_dir (wset (entry name (Some (S n)))) w) x -> linked w x).
    { intros x Lx. apply linked_set in Lx as [[_ E]|Lx]; [discriminate|exact Lx]. }
    assert (NE : forall x, linked w x -> name <> x).
    { intros x Lx ->. pose proof (HS x Lx) as Q. pose proof (proj1 (proj1 SW) x) as Q'. rewrite Q, CU in Q'. destruct Q' as [Q'|[]]. discriminate. }
    assert (S' : Safe g (set_dir (wset (entry name (Some (S n)))) w)).
    { split; [apply WF_dir_set, SW|]. intros x Lx. apply (proj2 SW x (LS x Lx)). }
    split; [constructor; [exact S'|constructor]|]. split; [exact S'|]. split.
    + intros x Lx. apply LS in Lx. cbn [set_dir wdir wset disk]. unfold entry.
      destruct (String.eqb name x) eqn:E; [apply String.eqb_eq in E; destruct (NE x Lx E)|apply HS, Lx].
    + cbn [set_dir hnd wfile]. destruct (hnd w) as [i|]; [|exact Logic.I]. destruct HI as (V & MD & U & L).
      split; [exact V|]. split; [exact MD|]. split; [intros E x Lx; apply (U E x), LS, Lx|].
      intros E. destruct (L E) as (A & B & C). split; [exact A|]. split; [exact B|].
      unfold linked. cbn [set_dir wdir wset disk]. unfold entry.
      destruct (String.eqb name (iname i)) eqn:E'; [right|]; exact C.
  - (* EEnvUnlink *)
    unfold between, after, offer. cbn [exec].
    destruct (cur (wdir w) name) as [[|k]|] eqn:CU; try (cbn; split; [constructor|exact IW]).
    cbn [sys fst snd].
    assert (LS : forall x, linked (set_dir (wset (entry name None)) w) x -> linked w x).
    { intros x Lx. apply linked_set in Lx as [[_ E]|Lx]; [discriminate|exact Lx]. }
    assert (NE : forall x, linked w x -> name <> x).
    { intros x Lx ->. pose proof (HS x Lx) as Q. pose proof (proj1 (proj1 SW) x) as Q'. rewrite Q, CU in Q'. destruct Q' as [Q'|[]]. discriminate. }
    assert (S' : Safe g (set_dir (wset (entry name None)) w)).
    { split; [apply WF_dir_set, SW|]. intros x Lx. apply (proj2 SW x (LS x Lx)). }
    split; [constructor; [exact S'|constructor]|]. split; [exact S'|]. split.
    + intros x Lx. apply LS in Lx. cbn [set_dir wdir wset disk]. unfold entry.
      destruct (String.eqb name x) eqn:E; [apply String.eqb_eq in E; destruct (NE x Lx E)|apply HS, Lx].
    + cbn [set_dir hnd wfile]. destruct (hnd w) as [i|]; [|exact Logic.I]. destruct HI as (V & MD & U & L).
      split; [exact V|]. split; [exact MD|]. split; [intros E x Lx; apply (U E x), LS, Lx|].
      intros E. destruct (L E) as (A & B & C). split; [exact A|]. split; [exact B|].
      unfold linked. cbn [set_dir wdir wset disk]. unfold entry.
      destruct (String.eqb name (iname i)) eqn:E'; [right|]; exact C.
  - (* EEnvSync *)
    unfold between, after, offer. cbn [exec sys fst snd].
    assert (LS : forall x, linked (set_dir (if fault then wfail else wsync) w) x -> linked w x)
      by (intros x; apply linked_dir_sync, SW).
    assert (KEEP : forall x, linked w x -> disk (wdir (set_dir (if fault then wfail else wsync) w)) x = [Some me]).
    { intros x Lx. pose proof (HS x Lx) as Q. cbn [set_dir wdir]. destruct fault; cbn [wfail wsync disk]; [exact Q|].
      destruct (dirty (wdir w) x); [|exact Q]. pose proof (proj1 (proj1 SW) x) as Q'. rewrite Q in Q'. destruct Q' as [<-|[]]. reflexivity. }
    assert (S' : Safe g (set_dir (if fault then wfail else wsync) w)).
    { split; [apply WF_dir_sync, SW|]. intros x Lx. apply (proj2 SW x (LS x Lx)). }
    split; [constructor; [exact S'|constructor]|]. split; [exact S'|]. split.
    + intros x Lx. apply KEEP, LS, Lx.
    + cbn [set_dir hnd wfile]. destruct (hnd w) as [i|]; [|exact Logic.I]. destruct HI as (V & MD & U & L).
      split; [exact V|]. split; [exact MD|]. split; [intros E x Lx; apply (U E x), LS, Lx|].
      intros E. destruct (L E) as (A & B & C). split; [exact A|]. split; [exact B|].
      unfold linked. rewrite (KEEP _ C). left. reflexivity.
  - (* ECrash *)
    unfold between, after, offer. cbn [exec fst snd]. split; [constructor|].
    pose proof (proj1 SW) as (A & B & C & D).
    assert (LS : forall x, linked (World (on_disk (survive cf (wfile w))) (on_disk (survive cd (wdir w))) None) x ->
        survive cd (wdir w) x = Some me).
    { intros x [E|[]]. exact E. }
    split.
    + split.
      * split; [intros n; left; reflexivity|]. split; [reflexivity|]. split; [intros o; left; reflexivity|].
        intros o v Ho [<-|[]]. eapply D; [exact Ho|]. apply survive_in, C.
      * intros n Ln. apply LS in Ln. apply crash_survive_dir in Ln; [|apply SW].
        destruct (proj2 SW n Ln) as (ob & G & ON & DU & HO & OV & NN).
        exists ob. split; [exact G|]. split; [exact ON|]. split; [intros o; reflexivity|].
        split; [|auto]. apply (holds_ext _ (cur (wfile w))); [|exact HO].
        intros o. cbn [wfile on_disk cur]. apply survive_durable, DU.
    + split; [|exact Logic.I]. intros n Ln. apply LS in Ln. cbn [wdir on_disk disk]. rewrite Ln. reflexivity.
Qed.

Lemma init_inv m body d : man_valid m -> content_valid body -> dir_valid d -> Inv None (new_world m body d).
Proof.
  intros V B D.
  assert (U : unlinked (new_world m body d)) by (intros n; apply D).
  assert (W : WF (new_world m body d)).
  { split; [intros n; apply D|]. split; [discriminate|]. split; [intros o; left; reflexivity|].
    intros o v Ho [<-|[<-|[]]]; [apply B|]. unfold is_byte. lia. }
  split; [apply safe_unlinked; assumption|]. split; [intros n L; destruct (U n L)|].
  cbn [new_world hnd man manDirty iname]. split; [exact V|]. split; [discriminate|]. split; [auto|].
  intros E. destruct (E eq_refl).
Qed.

Lemma points_safe l : forall g w, Inv g w -> Forall clean l ->
  forall g' w', In (g', w') (points g w l) -> Safe g' w'.
Proof.
  induction l as [|e l IH]; intros g w IW CL g' w' Hin; cbn [points] in Hin.
  - destruct Hin as [E|[]]. injection E as <- <-. apply IW.
  - destruct Hin as [E|Hin]; [injection E as <- <-; apply IW|].
    inversion CL as [|? ? C1 C2]; subst.
    destruct (step_inv g w e IW C1) as [FB IA]. apply in_app_iff in Hin as [Hin|Hin].
    + apply in_map_iff in Hin as (x & E & Hx). injection E as <- <-. apply (proj1 (Forall_forall _ _) FB x Hx).
    + eapply IH; eauto.
Qed.

Lemma run_inv l : forall g w, Inv g w -> Forall clean l -> exists g', Inv g' (run w l).
Proof.
  induction l as [|e l IH]; intros g w IW CL; cbn [run]; [eauto|].
  inversion CL as [|? ? C1 C2]; subst. destruct (step_inv g w e IW C1) as [_ IA]. eapply IH; eauto.
Qed.
