From Verif Require Import BaseLemmas Varint VarintProofs StreamState StreamStateProofs ReadStream.

Lemma odd_mod x : Z.odd x = (x mod 2 =? 1).
Proof. rewrite Zmod_odd. destruct (Z.odd x); reflexivity. Qed.

Lemma flags_bits s b w h : 0 <= h ->
  has FlagSubscribing (flags_of s b w h) = s /\ has FlagReadWriting (flags_of s b w h) = b /\
  has FlagSendReceiving (flags_of s b w h) = w /\ flags_of s b w h / 8 = h /\ 0 <= flags_of s b w h < 8 * h + 8.
Proof.
  intros Hh. unfold has, flags_of, FlagSubscribing, FlagReadWriting, FlagSendReceiving.
  rewrite !odd_mod. rewrite Z.div_1_r.
  destruct s, b, w; repeat split; try lia.
Qed.

Lemma resave_ok x max : state_ok x -> len (Data x) <= max -> resave x max = Ok x.
Proof.
  intros H HD. pose proof H as (H1 & H2 & H3 & H4). unfold resave. rewrite size_ok by assumption. cbn [bind].
  rewrite marshal_ok; [|assumption..|unfold len at 2; rewrite repeat_length; pose proof (len_nonneg (enc x)); lia].
  cbn [bind]. rewrite <- (app_nil_r (enc x)). rewrite unmarshal_enc by assumption.
  replace (len (Data x) >? max) with false by lia. reflexivity.
Qed.

Lemma resave_big x max : 0 <= Flags x < 2 ^ 31 -> 2 ^ 31 <= Subscribed x < 2 ^ 32 -> resave x max = Panic.
Proof.
  intros H1 H2. unfold resave, MarshaledSize. rewrite (s32_31 (Flags x)) by lia. rewrite Len_ok by lia. cbn [bind].
  assert (s32 (Subscribed x) = Subscribed x - 2 ^ 32) as -> by (unfold s32; lia).
  assert (H : Len (Subscribed x - 2 ^ 32) = Panic); [|now rewrite H].
  unfold Len, PutUvarint. assert (HU : u64 (Subscribed x - 2 ^ 32) = Subscribed x - 2 ^ 32 + 2 ^ 64) by (unfold u64; lia).
  rewrite HU. unfold put_at.
  assert (HL : (6 <= length (put_uvarint_bytes (Subscribed x - 2 ^ 32 + 2 ^ 64)))%nat).
  { unfold put_uvarint_bytes. cbn [uvarint_bytes].
    set (y := Subscribed x - 2 ^ 32 + 2 ^ 64) in *. assert (2 ^ 63 < y) by lia. clearbody y.
    replace (y >=? 128) with true by lia. replace (y / 128 >=? 128) with true by lia.
    replace (y / 128 / 128 >=? 128) with true by lia. replace (y / 128 / 128 / 128 >=? 128) with true by lia.
    replace (y / 128 / 128 / 128 / 128 >=? 128) with true by lia. cbn [length].
    match goal with |- context [length ?l] => assert (1 <= length l)%nat by (destruct (_ >=? _); cbn [length]; lia) end. lia. }
  rewrite repeat_length. unfold MaxLen. destruct (Nat.leb_spec (0 + length (put_uvarint_bytes (Subscribed x - 2 ^ 32 + 2 ^ 64))) 5); [lia|reflexivity].
Qed.

(* Invariant A: arithmetic of subscription and position. *)
Definition InvA (s : rst) : Prop :=
  0 <= subscribed s < 2 ^ 32 /\ 0 <= readpos s < 2 ^ 32 /\
  u32 (subscribed s - readpos s) = u32 (granted s - len (src s)) /\ len (src s) <= granted s /\
  0 <= hi s < 2 ^ 28 /\
  match pc s with PReading n => n <= granted s - len (src s) | PDone => readpos s = 0 | _ => True end.

Lemma u32_sub_le x : 0 <= x -> u32 x <= x.
Proof. unfold u32. intros H. apply Z.mod_le; lia. Qed.

Lemma u32_norm a b : u32 (u32 a - b) = u32 (a - b).
Proof. unfold u32. apply Zminus_mod_idemp_l. Qed.

Lemma InvA_start x hasr o sr g c :
  0 <= Flags x < 2 ^ 31 -> 0 <= Subscribed x < 2 ^ 32 -> Subscribed x = u32 (g - len sr) -> len sr <= g ->
  InvA (start x hasr o sr g c).
Proof.
  intros HF HS HE HG. unfold InvA, start. cbn [subscribed readpos granted src hi pc].
  split; [lia|]. split; [lia|]. split; [rewrite Z.sub_0_r, HE; unfold u32; now rewrite Zmod_mod|].
  split; [lia|]. split; [lia|]. destruct (_ && _); exact I.
Qed.

Ltac simp := cbn [set_pc close_read take_token after_select sub hi subscribed sdata token closed cancelled poking pc r send done sending readpos pkt rerror out src granted cut Flags Subscribed Data state_of] in *.
Ltac inv H := injection H as H; subst.


Ltac finA := unfold InvA; simp; repeat (split; try assumption || lia || exact I); try assumption || lia || exact I.

Lemma InvA_step M s e s' : 16 < M < 2 ^ 31 -> InvA s -> step M s e = Some s' ->
  (forall hasr, e <> EResume hasr) -> InvA s'.
Proof.
  intros HM (H1 & H2 & H3 & H4 & H5 & H6) E NR.
  destruct e; unfold step in E; [..|specialize (NR hasr); congruence].
  - destruct (_ || closed s); [discriminate|]. destruct (_ || _ || _) eqn:Q in E; inv E; [finA|].
    unfold InvA; simp. pose proof (u32_bound (subscribed s + inc)). repeat (split; try lia); try assumption.
    + rewrite u32_norm. replace (subscribed s + inc - readpos s) with (subscribed s - readpos s + inc) by lia.
      replace (granted s + inc - len (src s)) with (granted s - len (src s) + inc) by lia.
      unfold u32 in *. rewrite <- Zplus_mod_idemp_l, H3, Zplus_mod_idemp_l. reflexivity.
    + destruct (pc s); trivial. lia.
  - destruct (_ || closed s); [discriminate|]. destruct (negb _); inv E; finA.
  - destruct (poking s); [|discriminate]. inv E. finA.
  - destruct (_ || closed s); [discriminate|]. inv E. finA.
  - inv E. finA.
  - destruct (pc s) eqn:PC; try discriminate.
    + destruct (_ || _); inv E; finA.
    + inv E. finA. destruct (_ || _); trivial.
    + destruct (r s); [|inv E; finA].
      destruct (u32 _ =? 0) eqn:Q; inv E; [finA|].
      unfold InvA; simp. repeat (split; try assumption || lia).
      pose proof (u32_sub_le (granted s - len (src s)) ltac:(lia)).
      rewrite (u32_id (M - 16)) by lia.
      destruct (M - 16 >? _) eqn:Q2; lia.
    + inv E. destruct (sub s); finA.
    + inv E. finA.
    + inv E. unfold InvA; simp. pose proof (u32_bound (subscribed s - readpos s)).
      repeat (split; try assumption || lia || trivial). rewrite Z.sub_0_r. rewrite H3. unfold u32. now rewrite Zmod_mod.
  - destruct (pc s) eqn:PC; try discriminate. destruct (sending s) eqn:SG; [|discriminate].
    destruct (pkt s) eqn:PK; inv E; finA; destruct (_ && _); exact I.
  - destruct (pc s) eqn:PC; try discriminate; (destruct (token s); [|destruct (closed s); [|discriminate]]); inv E; finA.
    all: destruct (_ && _); exact I.
  - destruct (_ && _); [|discriminate]. destruct (pc s) eqn:PC; try discriminate; inv E; finA; destruct (_ && _); exact I.
  - destruct (pc s) eqn:PC; try discriminate. destruct (_ || _ || _); [discriminate|]. inv E. finA.
  - destruct (pc s) eqn:PC; try discriminate. destruct (len d >? n) eqn:Q; [discriminate|].
    pose proof (u32_bound (readpos s + len d)). pose proof (len_nonneg d).
    assert (K : u32 (subscribed s - u32 (readpos s + len d)) = u32 (granted s - len (src s ++ d))).
    { rewrite len_app. unfold u32 in *. rewrite Zminus_mod_idemp_r.
      replace (subscribed s - (readpos s + len d)) with (subscribed s - readpos s - len d) by lia.
      replace (granted s - (len (src s) + len d)) with (granted s - len (src s) - len d) by lia.
      rewrite <- Zminus_mod_idemp_l, H3, Zminus_mod_idemp_l. reflexivity. }
    assert (len (src s ++ d) <= granted s) by (rewrite len_app; lia).
    destruct e; inv E; finA.
Qed.

Definition nonempty (d : bytes) : Prop := d <> [].

Record InvB (L : Z) (fin0 : bool) (s : rst) : Prop := MkB {
  b_flow : concat (out s) ++ pending s = src s;
  b_sdata : pc s <> PDone -> pc s <> PCrash -> sdata s = [];
  b_done : pc s = PDone -> pkt s = None;
  b_fin : send s = false -> r s = false /\ pending s = [];
  b_pc : match pc s with
         | PChk | PSelB =>
             (sending s = true -> send s = true /\ exists d, pkt s = Some d /\ (d <> [] \/ r s = false)) /\
             (sending s = false -> has_data (pkt s) = false /\ (r s = false -> send s = false))
         | PSelN => sending s = false /\ r s = true /\ has_data (pkt s) = false
         | PRd => has_data (pkt s) = false
         | PFl => r s = true /\ has_data (pkt s) = false
         | PReading n => r s = true /\ has_data (pkt s) = false /\ n <= L
         | PEnd => send s = false /\ sub s = false
         | _ => True
         end;
  b_size : Forall (fun d => len d <= L) (out s) /\ len (pending s) <= L;
  b_live : send s = true -> Forall nonempty (out s);
  b_eof : send s = false ->
          (cut s = true /\ Forall nonempty (out s)) \/
          (cut s = false /\ exists o, out s = o ++ [[]] /\ Forall nonempty o) \/
          (fin0 = true /\ out s = []);
  b_cut : (r s = true -> cut s = false) /\ (send s = true -> r s = false -> (cut s = true <-> pending s <> [])) }.

Lemma has_data_false p : has_data p = false -> match p with Some d => d | None => [] end = [].
Proof. destruct p as [[|b t]|]; cbn; congruence. Qed.
Lemma has_data_true p : has_data p = true -> match p with Some d => d | None => [] end <> [].
Proof. destruct p as [[|b t]|]; cbn; congruence. Qed.

Ltac easyB := try solve [assumption | discriminate | congruence | tauto | lia | intuition congruence].

Lemma InvB_step M L f s e s' : 16 < M < 2 ^ 31 -> M - 16 <= L -> InvB L f s -> step M s e = Some s' ->
  (forall hasr, e <> EResume hasr) -> InvB L f s'.
Proof.
  intros HM HL [B1 B2 B3 B4 B5 B6 B7 B8 B9] E NR.
  destruct e; unfold step in E; [..|specialize (NR hasr); congruence].
  - destruct (_ || closed s); [discriminate|]. destruct (_ || _ || _) eqn:Q in E; inv E; [split; easyB|].
    split; unfold pending in *; simp; easyB.
  - destruct (_ || closed s); [discriminate|]. destruct (negb _) eqn:Q; inv E; [split; easyB|].
    split; unfold pending in *; simp; easyB. destruct (pc s); easyB.
  - destruct (poking s); [|discriminate]. inv E. split; unfold pending in *; simp; easyB.
  - destruct (_ || closed s); [discriminate|]. inv E. split; unfold pending in *; simp; easyB.
  - inv E. split; unfold pending in *; simp; easyB.
  - destruct (pc s) eqn:PC; try discriminate.
    + (* PTop *)
      assert (SD : sdata s = []) by (apply B2; discriminate).
      destruct (send s || sub s) eqn:Q; inv E.
      * destruct (send s) eqn:SE; cbn [andb orb] in *.
        -- destruct (has_data (pkt s)) eqn:HD; cbn [andb negb orb] in *.
           ++ split; unfold pending in *; simp; easyB. split; [|easyB]. intros _. split; [reflexivity|].
              destruct (pkt s) as [d|] eqn:PK; [|discriminate]. exists d. split; [reflexivity|]. left.
              apply has_data_true in HD. exact HD.
           ++ destruct (r s) eqn:RR; cbn [negb] in *.
              ** split; unfold pending in *; simp; easyB.
              ** split; unfold pending in *; simp; easyB.
                 --- destruct (pkt s); easyB.
                 --- split; [|easyB]. intros _. split; [reflexivity|]. destruct (pkt s) as [d|]; eexists; split; try reflexivity; now right.
                 --- split; [easyB|]. destruct (pkt s); easyB.
                 --- split; [easyB|]. destruct (pkt s); easyB.
        -- split; unfold pending in *; simp; easyB. split; [easyB|]. intros _. destruct (B4 eq_refl) as [RR PE].
           rewrite SD, app_nil_r in PE. destruct (pkt s) as [[|]|]; easyB.
      * apply orb_false_iff in Q. split; unfold pending in *; simp; easyB.
    + (* PChk *)
      inv E. split; unfold pending in *; simp; easyB. 
      * destruct (_ || _); easyB.
      * destruct (_ || _) eqn:Q; easyB.
    + (* PRd *)
      destruct (r s) eqn:RR; [|inv E; split; unfold pending in *; simp; easyB].
      destruct (u32 _ =? 0) eqn:Q; inv E; (split; unfold pending in *; simp; easyB).
      split; [assumption|]. split; [assumption|].
      rewrite (u32_id (M - 16)) by lia. destruct (M - 16 >? _) eqn:Q2; lia.
    + (* PFl *)
      inv E. destruct (sub s) eqn:SU; (split; unfold pending in *; simp; easyB).
      * destruct B5 as [B5 B5']. rewrite B5'. destruct B9 as [B9 B9']. rewrite B9 by assumption.
        cbn. rewrite andb_false_r. split; [discriminate|]. split; [discriminate|].
        intros NE. rewrite B2 in NE by discriminate. rewrite app_nil_r in NE. exfalso; apply NE. now apply has_data_false.
    + (* PEnd *) inv E. split; unfold pending in *; simp; easyB.
    + (* PStop *)
      inv E. assert (SD : sdata s = []) by (apply B2; discriminate).
      assert (PE : (match pkt s with Some (b :: d) => b :: d | _ => sdata s end) = pending s).
      { unfold pending. rewrite SD, app_nil_r. destruct (pkt s) as [[|]|]; reflexivity. }
      rewrite PE. split; unfold pending at 1; simp; easyB; cbn [app]; easyB.
  - (* EAccept *)
    destruct (pc s) eqn:PC; try discriminate. destruct (sending s) eqn:SG; [|discriminate].
    assert (SD : sdata s = []) by (apply B2; discriminate).
    destruct B5 as [B5 _]. destruct (B5 eq_refl) as (SE & d & PK & DR). rewrite PK in E. inv E.
    assert (PE : pending s = d) by (unfold pending; rewrite PK, SD; apply app_nil_r).
    split; unfold pending; simp; rewrite ?SD; cbn [app andb]; easyB.
    + rewrite concat_app. cbn [concat]. rewrite !app_nil_r. now rewrite <- B1, PE.
    + rewrite SE, andb_true_r. easyB.
    + split; [|unfold len; cbn; pose proof (len_nonneg (pending s)); lia].
      apply Forall_app. split; [easyB|]. constructor; [|constructor]. rewrite <- PE. easyB.
    + intros Q. apply andb_true_iff in Q. destruct Q as [Q _]. apply Forall_app. split; [easyB|].
      constructor; [|constructor]. destruct DR; [assumption|congruence].
    + rewrite SE, andb_true_r. intros RR. specialize (B7 SE). destruct B9 as [_ B9]. specialize (B9 SE RR).
      rewrite PE in B9. destruct (cut s).
      * left. split; [reflexivity|]. apply Forall_app. split; [assumption|]. constructor; [|constructor]. now apply B9.
      * right; left. split; [reflexivity|]. exists (out s). split; [|assumption]. 
        destruct d as [|b d]; [reflexivity|]. exfalso. assert (false = true) by (apply B9; discriminate). discriminate.
  - (* EWake *)
    destruct (pc s) eqn:PC; try discriminate.
    + destruct (token s); [|destruct (closed s); [|discriminate]]; inv E.
      * split; unfold pending in *; simp; easyB.
        -- destruct (_ && _); easyB.
        -- destruct (sending s) eqn:SG; cbn [andb]; [|easyB].
           destruct B5 as [B5 _]. destruct (B5 eq_refl) as (SE & d & PK & DR). rewrite PK. exact I.
      * split; unfold pending in *; simp; easyB.
    + destruct (token s); [|destruct (closed s); [|discriminate]]; inv E; split; unfold pending in *; simp; easyB.
  - (* EDone *)
    destruct (_ && _); [|discriminate].
    assert (CUT : pc s = PSelB \/ pc s = PSelN -> 
       (send s = true -> (cut s || (r s && has_data (pkt s)) = true <-> pending s <> []))).
    { intros P SE. assert (SD : sdata s = []) by (destruct P as [P|P]; apply B2; rewrite P; discriminate).
      unfold pending. rewrite SD, app_nil_r. destruct B9 as [B9 B9']. destruct (r s) eqn:RR.
      - rewrite B9 by reflexivity. cbn. split; [apply has_data_true|]. intros NE.
        destruct (has_data (pkt s)) eqn:HD; [reflexivity|]. apply has_data_false in HD. contradiction.
      - cbn. rewrite orb_false_r. specialize (B9' SE eq_refl). unfold pending in B9'. now rewrite SD, app_nil_r in B9'. }
    assert (NB8 : send s = false -> cut s || r s && has_data (pkt s) = cut s)
      by (intros SE; destruct (B4 SE) as [-> _]; now rewrite andb_false_l, orb_false_r).
    destruct (pc s) eqn:PC; try discriminate; inv E.
    + split; unfold pending in *; simp; easyB.
      * destruct (sending s && match pkt s with Some _ => true | None => false end); easyB.
      * destruct (sending s) eqn:SG; cbn [andb]; [|easyB].
        destruct B5 as [B5 _]. destruct (B5 eq_refl) as (SE & d & PK & DR). rewrite PK. exact I.
    + split; unfold pending in *; simp; easyB.
  - destruct (pc s) eqn:PC; try discriminate. destruct (_ || _ || _); [discriminate|]. inv E. split; unfold pending in *; simp; easyB.
  - (* ERead *)
    destruct (pc s) eqn:PC; try discriminate. destruct (len d >? n) eqn:Q; [discriminate|].
    destruct B5 as (RR & HD & HN). assert (SD : sdata s = []) by (apply B2; discriminate).
    assert (PE : pending s = []) by (unfold pending; rewrite SD, app_nil_r; now apply has_data_false).
    assert (SE : send s = true) by (destruct (send s); [reflexivity|destruct (B4 eq_refl); congruence]).
    destruct B9 as [B9 B9']. specialize (B9 RR). rewrite PE, app_nil_r in B1.
    assert (HB : Forall (fun d => len d <= L) (out s) /\ len (d ++ []) <= L) by (rewrite app_nil_r; split; [tauto|lia]).
    assert (HF : concat (out s) ++ d ++ [] = src s ++ d) by (rewrite app_nil_r; congruence).
    destruct e; inv E; (split; unfold pending; simp; rewrite ?SD; easyB).
    + rewrite RR, B9. cbn [andb orb]. split; [discriminate|]. intros _ _. rewrite app_nil_r. destruct d; cbn; easyB.
    + rewrite RR, B9. cbn [andb orb]. split; [discriminate|]. intros _ _. rewrite app_nil_r. destruct d; cbn; easyB.
Qed.

