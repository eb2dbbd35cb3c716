From Verif Require Import BaseLemmas Varint VarintProofs StreamState StreamStateProofs Origin OriginProofs.

Definition P31 := 2 ^ 31.
Definition entry_ok (maxSend bufsize : Z) (x : Z * (State * State)) : Prop :=
  0 <= fst x < 2 ^ 31 /\ state_ok (fst (snd x)) /\ state_ok (snd (snd x)) /\
  len (Data (fst (snd x))) <= maxSend /\ len (Data (snd (snd x))) <= bufsize.

Definition enc1 (x : Z * (State * State)) : bytes := put_uvarint_bytes (fst x) ++ enc (fst (snd x)) ++ enc (snd (snd x)).
Definition encs (m : list (Z * (State * State))) : bytes := concat (map enc1 m).

Lemma encs_cons id r w t : encs ((id, (r, w)) :: t) = put_uvarint_bytes id ++ enc r ++ enc w ++ encs t.
Proof. unfold encs. cbn [map concat]. unfold enc1. cbn [fst snd]. now rewrite <- !app_assoc. Qed.

Lemma suspend_size_ok ms bs m : Forall (entry_ok ms bs) m -> suspend_size m = Ok (len (encs m)).
Proof.
  intros H. induction H as [|[id [r w]] t (Hi & Hr & Hw & _) _ IH]; [reflexivity|].
  cbn [suspend_size]. cbn [fst snd] in *. rewrite Len_ok by assumption. cbn [bind]. unfold StreamMarshaledSize.
  destruct Hr as (r1 & r2 & r3 & _), Hw as (w1 & w2 & w3 & _). rewrite !size_ok by assumption. cbn [bind]. rewrite IH. cbn [bind].
  rewrite encs_cons, !len_app. f_equal. lia.
Qed.

Lemma suspend_put_ok ms bs m : Forall (entry_ok ms bs) m -> forall dest, len (encs m) <= len dest ->
  suspend_put m dest = Ok (encs m, skipn (length (encs m)) dest).
Proof.
  intros H. induction H as [|[id [r w]] t (Hi & Hr & Hw & _) _ IH]; intros dest L; [reflexivity|].
  cbn [suspend_put]. cbn [fst snd] in *. rewrite encs_cons, !len_app in L. pose proof (len_nonneg (encs t)). pose proof (len_nonneg (enc r)). pose proof (len_nonneg (enc w)).
  rewrite Put_ok by (try assumption; unfold len in *; lia). cbn [bind]. unfold StreamMarshal.
  destruct Hr as (r1 & r2 & r3 & _), Hw as (w1 & w2 & w3 & _).
  rewrite marshal_ok by (try assumption; unfold len in *; rewrite skipn_length; lia). cbn [bind].
  rewrite marshal_ok by (try assumption; unfold len in *; rewrite !skipn_length; lia). cbn [bind].
  rewrite IH by (unfold len in *; rewrite !skipn_length; lia). cbn [bind].
  rewrite encs_cons.
  rewrite !skipn_skipn, !app_length, <- !app_assoc.
  replace (length (encs t) + (length (enc w) + (length (enc r) + length (put_uvarint_bytes id))))%nat
    with (length (put_uvarint_bytes id) + (length (enc r) + (length (enc w) + length (encs t))))%nat by lia. reflexivity.
Qed.

Lemma stream_unmarshal_enc r w rest ms bs : state_ok r -> state_ok w -> len (Data r) <= ms -> len (Data w) <= bs ->
  StreamUnmarshal (enc r ++ enc w ++ rest) ms bs = Ok (r, w, rest).
Proof.
  intros Hr Hw H1 H2. unfold StreamUnmarshal. rewrite unmarshal_enc by assumption. replace (_ >? ms) with false by lia. cbn [bind].
  rewrite unmarshal_enc by assumption. replace (_ >? bs) with false by lia. reflexivity.
Qed.

Lemma enc1_len x : (1 <= length (enc1 x))%nat.
Proof. unfold enc1. rewrite !app_length. pose proof (uvarint_len_pos 9 (fst x)). unfold put_uvarint_bytes. lia. Qed.

Lemma restore_loop_ok ms bs m : Forall (entry_ok ms bs) m -> forall fuel acc, (length m <= fuel)%nat ->
  NoDup (map fst acc ++ map fst m) -> restore_loop fuel (len m) (encs m) ms bs acc = Ok (acc ++ m).
Proof.
  intros H. induction H as [|[id [r w]] t (Hi & Hr & Hw & Dr & Dw) _ IH]; intros fuel acc F N.
  - destruct fuel; cbn; now rewrite app_nil_r.
  - destruct fuel as [|k]; [cbn in F; lia|]. cbn [restore_loop]. replace (len ((id, (r, w)) :: t) <=? 0) with false by (rewrite len_cons; pose proof (len_nonneg t); lia).
    rewrite encs_cons. cbn [fst snd] in *.
    rewrite Scan_put by assumption. cbn [bind]. rewrite stream_unmarshal_enc by assumption. cbn [bind].
    destruct (existsb (fun x => fst x =? id) acc) eqn:X.
    { exfalso. apply existsb_exists in X. destruct X as ([i y] & I & E). cbn in E. apply Z.eqb_eq in E. subst i.
      cbn [map fst] in N. apply NoDup_remove_2 in N. apply N. apply in_app_iff. left. apply in_map_iff. exists (id, y). auto. }
    rewrite len_cons. replace (1 + len t - 1) with (len t) by lia. rewrite IH.
    + now rewrite <- app_assoc.
    + cbn in F. lia.
    + rewrite map_app. cbn [map fst]. rewrite <- app_assoc. exact N.
Qed.

Lemma encs_length m : (length m <= length (encs m))%nat.
Proof.
  induction m as [|x t IH]; [cbn; lia|]. unfold encs. cbn [map concat length]. rewrite app_length. fold (encs t). pose proof (enc1_len x). lia.
Qed.

Lemma len_repeat n : 0 <= n -> len (repeat 0 (Z.to_nat n)) = n.
Proof. intros H. unfold len. rewrite repeat_length. lia. Qed.

Theorem suspend_roundtrip acc m ms bs : 0 <= acc < 2 ^ 31 -> len m < 2 ^ 31 -> NoDup (map fst m) -> Forall (entry_ok ms bs) m ->
  exists b, suspendState acc m = Ok b /\ restoreState b ms bs = Ok (acc, m).
Proof.
  intros HA HL HN HE. unfold suspendState. pose proof (len_nonneg m) as L0. rewrite (s32_31 (len m)) by lia.
  destruct ((acc =? 0) && (len m =? 0)) eqn:Q.
  { exists []. split; [reflexivity|]. destruct m; [|unfold len in Q; cbn [length] in Q; lia]. cbn. f_equal. f_equal. lia. }
  rewrite Len_ok by assumption. cbn [bind]. pose proof (len_nonneg (encs m)) as LE. pose proof (len_nonneg (put_uvarint_bytes acc)) as LA.
  assert (PA : exists c t, put_uvarint_bytes acc = c :: t).
  { destruct (put_uvarint_bytes acc) eqn:E; [|eauto]. pose proof (uvarint_len_pos 9 acc) as P. unfold put_uvarint_bytes in E. rewrite E in P. cbn in P. lia. }
  destruct (len m >? 0) eqn:G.
  - rewrite Len_ok by lia. cbn [bind]. rewrite (suspend_size_ok ms bs m HE). cbn [bind].
    pose proof (len_nonneg (put_uvarint_bytes (len m))) as LM.
    set (size := len (put_uvarint_bytes acc) + (len (put_uvarint_bytes (len m)) + len (encs m))).
    rewrite Put_ok; [|assumption|]. 2:{ pose proof (len_repeat size ltac:(lia)) as LR. unfold len in *. lia. }
    cbn [bind]. pose proof (len_repeat size ltac:(lia)) as LR.
    rewrite Put_ok; [|lia|]. 2:{ unfold len in *. rewrite skipn_length. lia. }
    cbn [bind]. rewrite (suspend_put_ok ms bs m HE). 2:{ unfold len in *. rewrite !skipn_length. lia. }
    cbn [bind]. eexists. split; [reflexivity|].
    rewrite skipn_skipn, skipn_skipn, skipn_all2 by (unfold len in *; lia). rewrite app_nil_r.
    unfold restoreState. destruct PA as (c & t & PA). rewrite PA at 1. cbn [app]. rewrite Scan_put by assumption. cbn [bind].
    destruct (put_uvarint_bytes (len m)) as [|c2 t2] eqn:E2.
    { pose proof (uvarint_len_pos 9 (len m)) as P. unfold put_uvarint_bytes in E2. rewrite E2 in P. cbn in P. lia. }
    cbn [app]. rewrite app_comm_cons, <- E2, Scan_put by lia. cbn [bind].
    rewrite (restore_loop_ok ms bs m HE); [reflexivity|apply encs_length|assumption].
  - assert (m = []) as -> by (destruct m; [reflexivity|rewrite len_cons in G; pose proof (len_nonneg m); lia]).
    cbn [bind]. rewrite Put_ok; [|assumption|]. 2:{ pose proof (len_repeat (len (put_uvarint_bytes acc)) ltac:(lia)) as LR. unfold len in *. lia. }
    cbn [bind]. eexists. split; [reflexivity|].
    pose proof (len_repeat (len (put_uvarint_bytes acc)) ltac:(lia)) as LR.
    rewrite skipn_all2 by (unfold len in *; lia). unfold restoreState. destruct PA as (c & t & PA). rewrite PA at 1. cbn [app].
    rewrite Scan_put by assumption. reflexivity.
Qed.

(* arbitrary input *)
Lemma restore_loop_total ms bs : forall fuel n input acc, is_bytes input ->
  restore_loop fuel n input ms bs acc <> Panic.
Proof.
  induction fuel as [|k IH]; intros n input acc HB; cbn [restore_loop]; destruct (n <=? 0); try discriminate.
  destruct (Scan_total input HB) as [->|(v & j & -> & Hv & Hj)]; [discriminate|]. cbn [bind].
  assert (HB2 : is_bytes (skipn j input)) by now apply Forall_skipn.
  unfold StreamUnmarshal. destruct (unmarshal_untrusted _ ms HB2) as [->|(s & j2 & -> & _)]; [discriminate|]. cbn [bind].
  assert (HB3 : is_bytes (skipn j2 (skipn j input))) by now apply Forall_skipn.
  destruct (unmarshal_untrusted _ bs HB3) as [->|(s2 & j3 & -> & _)]; [discriminate|]. cbn [bind].
  destruct (existsb _ _); [discriminate|]. apply IH. now apply Forall_skipn.
Qed.

Lemma restore_loop_sound ms bs : forall fuel n input acc m, is_bytes input ->
  restore_loop fuel n input ms bs acc = Ok m -> NoDup (map fst acc) -> Forall (entry_ok ms bs) acc ->
  NoDup (map fst m) /\ Forall (entry_ok ms bs) m.
Proof.
  induction fuel as [|k IH]; intros n input acc m HB E N F; cbn [restore_loop] in E.
  - destruct (n <=? 0); [|discriminate]. injection E as <-. auto.
  - destruct (n <=? 0); [injection E as <-; auto|].
    destruct (Scan_total input HB) as [S|(v & j & S & Hv & Hj)]; rewrite S in E; [discriminate|]. cbn [bind] in E.
    assert (HB2 : is_bytes (skipn j input)) by now apply Forall_skipn.
    unfold StreamUnmarshal in E. destruct (unmarshal_untrusted _ ms HB2) as [U|(s & j2 & U & _ & O1 & D1 & _)]; rewrite U in E; [discriminate|]. cbn [bind] in E.
    assert (HB3 : is_bytes (skipn j2 (skipn j input))) by now apply Forall_skipn.
    destruct (unmarshal_untrusted _ bs HB3) as [U2|(s2 & j3 & U2 & _ & O2 & D2 & _)]; rewrite U2 in E; [discriminate|]. cbn [bind] in E.
    destruct (existsb _ _) eqn:X in E; [discriminate|]. apply (IH _ _ _ _ (Forall_skipn _ _ _ HB3) E).
    + rewrite map_app. cbn [map fst]. apply NoDup_Add with (a := v) (l := map fst acc).
      * clear. pose proof (Add_app v (map fst acc) []) as A. now rewrite app_nil_r in A.
      * split; [assumption|]. intros Q. apply in_map_iff in Q. destruct Q as ([i y] & E1 & I). cbn in E1. subst i.
        assert (T : existsb (fun x : Z * (State * State) => fst x =? v) acc = true) by (apply existsb_exists; exists (v, y); split; [assumption|apply Z.eqb_refl]).
        congruence.
    + apply Forall_app. split; [assumption|]. constructor; [|constructor]. unfold entry_ok. cbn [fst snd].
      split; [change (2 ^ 31) with (2147483647 + 1); lia|]. auto.
Qed.
