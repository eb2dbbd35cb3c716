(* ManifestProofs.v: the wire format of Manifest.v round-trips and is short. *)
From Verif Require Import BaseLemmas ListLemmas VarintProofs Manifest.

Lemma bind_Ok {A B} (r : res A) (f : A -> res B) (x : A) : r = Ok x -> bind r f = f x.
Proof. intros ->. reflexivity. Qed.

Lemma get_varint_put x t : 0 <= x < 2 ^ 64 -> get_varint (put_uvarint_bytes x ++ t) = Ok (x, t).
Proof.
  intros H. unfold get_varint. rewrite uvarint_roundtrip by exact H.
  pose proof (uvarint_len_pos 9 x) as P. change (uvarint_bytes 9 x) with (put_uvarint_bytes x) in P.
  unfold len. destruct (Z.of_nat (length (put_uvarint_bytes x)) <=? 0) eqn:E; [lia|].
  rewrite Nat2Z.id, skipn_app_exact by reflexivity. reflexivity.
Qed.

Lemma put_nonnil x : put_uvarint_bytes x <> [].
Proof. pose proof (uvarint_len_pos 9 x) as P. unfold put_uvarint_bytes. intros E. rewrite E in P. cbn in P. lia. Qed.

Inductive Parses : bytes -> list (Z * fval) -> Prop :=
| P_nil : Parses [] []
| P_var num v rest l : 0 < num < 2 ^ 29 -> 0 <= v < 2 ^ 64 -> Parses rest l ->
    Parses (key num 0 ++ put_uvarint_bytes v ++ rest) ((num, FVar v) :: l)
| P_bytes num b rest l : 0 < num < 2 ^ 29 -> len b < 2 ^ 64 -> Parses rest l ->
    Parses (key num 2 ++ put_uvarint_bytes (len b) ++ b ++ rest) ((num, FBytes b) :: l).

Lemma Parses_parse b l : Parses b l -> forall fuel, (length b <= fuel)%nat -> parse fuel b = Ok l.
Proof.
  induction 1 as [|num v rest l Hn Hv P IH|num b rest l Hn Hv P IH]; intros fuel Hf.
  - destruct fuel; reflexivity.
  - assert (K : key num 0 <> []) by apply put_nonnil.
    destruct fuel as [|fuel].
    { destruct (key num 0); [congruence|]. cbn in Hf. lia. }
    assert (L : (length rest <= fuel)%nat).
    { rewrite !app_length in Hf. pose proof (uvarint_len_pos 9 (num * 8 + 0)) as Q.
      change (uvarint_bytes 9 (num * 8 + 0)) with (key num 0) in Q. lia. }
    cbn [parse]. destruct (key num 0 ++ put_uvarint_bytes v ++ rest) eqn:E.
    { destruct (key num 0); [congruence|discriminate]. }
    rewrite <- E. unfold key. rewrite get_varint_put by lia. cbn [bind].
    replace ((num * 8 + 0) / 8) with num by lia. replace ((num * 8 + 0) mod 8) with 0 by lia.
    destruct (num =? 0) eqn:E0; [lia|]. cbn [Z.eqb Pos.eqb].
    rewrite get_varint_put by lia. cbn [bind]. rewrite IH by exact L. reflexivity.
  - assert (K : key num 2 <> []) by apply put_nonnil.
    destruct fuel as [|fuel].
    { destruct (key num 2); [congruence|]. cbn in Hf. lia. }
    assert (L : (length rest <= fuel)%nat).
    { rewrite !app_length in Hf. pose proof (uvarint_len_pos 9 (num * 8 + 2)) as Q.
      change (uvarint_bytes 9 (num * 8 + 2)) with (key num 2) in Q. lia. }
    cbn [parse]. destruct (key num 2 ++ put_uvarint_bytes (len b) ++ b ++ rest) eqn:E.
    { destruct (key num 2); [congruence|discriminate]. }
    rewrite <- E. unfold key. rewrite get_varint_put by lia. cbn [bind].
    replace ((num * 8 + 2) / 8) with num by lia. replace ((num * 8 + 2) mod 8) with 2 by lia.
    destruct (num =? 0) eqn:E0; [lia|]. cbn [Z.eqb Pos.eqb].
    rewrite get_varint_put by (pose proof (len_nonneg b); lia). cbn [bind].
    unfold take, len. rewrite Nat2Z.id, app_length.
    replace (Nat.leb (length b) (length b + length rest)) with true by (symmetry; apply Nat.leb_le; lia).
    rewrite firstn_app_exact, skipn_app_exact by reflexivity. cbn [bind].
    rewrite IH by exact L. reflexivity.
Qed.

Lemma Parses_fields b l : Parses b l -> fields b = Ok l.
Proof. intros P. apply (Parses_parse _ _ P). lia. Qed.

Definition vf (num v : Z) : list (Z * fval) := if v =? 0 then [] else [(num, FVar (u64 v))].

Lemma Parses_vfield num v rest l : 0 < num < 2 ^ 29 -> Parses rest l -> Parses (vfield num v ++ rest) (vf num v ++ l).
Proof.
  intros Hn P. unfold vfield, vf. destruct (v =? 0); [exact P|].
  rewrite <- app_assoc. cbn [app]. apply P_var; [exact Hn|apply u64_bound|exact P].
Qed.

Lemma Parses_bfield num b rest l : 0 < num < 2 ^ 29 -> len b < 2 ^ 64 -> Parses rest l ->
  Parses (bfield num b ++ rest) ((num, FBytes b) :: l).
Proof. intros Hn Hb P. unfold bfield. rewrite <- !app_assoc. apply P_bytes; assumption. Qed.

Lemma merge_app {A} (step : A -> Z * fval -> res A) a b x :
  merge step (a ++ b) x = do y <- merge step a x; merge step b y.
Proof. revert x. induction a as [|f a IH]; intros x; cbn; [reflexivity|]. destruct (step x f); cbn; auto. Qed.

Lemma put_len64 x : 0 <= x < 2 ^ 64 -> (length (put_uvarint_bytes x) <= 10)%nat.
Proof. intros H. apply uvarint_len_gen; [|lia]. change (7 * Z.of_nat 10) with 70. lia. Qed.
Lemma put_len32 x : 0 <= x < 2 ^ 32 -> (length (put_uvarint_bytes x) <= 5)%nat.
Proof. intros H. apply uvarint_len_gen; [|lia]. change (7 * Z.of_nat 5) with 35. lia. Qed.
Lemma put_len14 x : 0 <= x < 2 ^ 14 -> (length (put_uvarint_bytes x) <= 2)%nat.
Proof. intros H. apply uvarint_len_gen; [|lia]. change (7 * Z.of_nat 2) with 14. lia. Qed.
Lemma put_len7 x : 0 <= x < 2 ^ 7 -> (length (put_uvarint_bytes x) <= 1)%nat.
Proof. intros H. apply uvarint_len_gen; [|lia]. change (7 * Z.of_nat 1) with 7. lia. Qed.

Lemma key_len num wt : 0 <= num < 16 -> 0 <= wt < 8 -> (length (key num wt) <= 1)%nat.
Proof. intros A B. unfold key. apply put_len7. lia. Qed.

Lemma vfield_len64 num v : 0 < num < 16 -> (length (vfield num v) <= 11)%nat.
Proof.
  intros H. unfold vfield. destruct (v =? 0); [cbn; lia|]. rewrite app_length.
  pose proof (key_len num 0 ltac:(lia) ltac:(lia)). pose proof (put_len64 (u64 v) (u64_bound v)). lia.
Qed.
Lemma vfield_len32 num v : 0 < num < 16 -> 0 <= v < 2 ^ 32 -> (length (vfield num v) <= 6)%nat.
Proof.
  intros H Hv. unfold vfield. destruct (v =? 0); [cbn; lia|]. rewrite app_length.
  pose proof (key_len num 0 ltac:(lia) ltac:(lia)).
  rewrite u64_id by lia. pose proof (put_len32 v Hv). lia.
Qed.

Definition func_ok (f : func) : Prop := 0 <= f_index f < 2 ^ 32 /\ 0 <= f_addr f < 2 ^ 32.
Definition snap_ok (s : snap) : Prop :=
  0 <= s_flags s < 2 ^ 64 /\ - 2 ^ 31 <= s_trap s < 2 ^ 31 /\ - 2 ^ 31 <= s_result s < 2 ^ 31 /\
  0 <= s_time s < 2 ^ 64 /\ Forall (fun x => 0 <= x < 2 ^ 64) (s_breaks s).
Definition opt_ok {A} (P : A -> Prop) (o : option A) : Prop := match o with Some x => P x | None => True end.
Definition iman_ok (m : iman) : Prop :=
  0 <= m_text m < 2 ^ 64 /\ 0 <= m_stack_size m < 2 ^ 32 /\ 0 <= m_stack_usage m < 2 ^ 32 /\
  0 <= m_globals m < 2 ^ 32 /\ 0 <= m_memory m < 2 ^ 32 /\ 0 <= m_max_memory m < 2 ^ 32 /\
  0 <= m_init m < 2 ^ 32 /\ opt_ok func_ok (m_start m) /\ opt_ok func_ok (m_entry m) /\ opt_ok snap_ok (m_snap m).

Lemma enc_func_len f : func_ok f -> (length (enc_func f) <= 12)%nat.
Proof.
  intros [A B]. unfold enc_func. rewrite app_length.
  pose proof (vfield_len32 1 _ ltac:(lia) A). pose proof (vfield_len32 2 _ ltac:(lia) B). lia.
Qed.

Lemma concat_len l : Forall (fun x => 0 <= x < 2 ^ 64) l ->
  (length (concat (map put_uvarint_bytes l)) <= 10 * length l)%nat.
Proof.
  induction 1 as [|x l H F IH]; cbn [map concat length]; [lia|]. rewrite app_length.
  pose proof (put_len64 x H). lia.
Qed.

Lemma bfield_len num b : 0 < num < 16 -> len b < 2 ^ 14 -> (length (bfield num b) <= 3 + length b)%nat.
Proof.
  intros H Hb. unfold bfield. rewrite !app_length.
  pose proof (key_len num 2 ltac:(lia) ltac:(lia)).
  pose proof (put_len14 (len b) ltac:(pose proof (len_nonneg b); lia)). lia.
Qed.

Lemma enc_snap_len s : snap_ok s -> (length (s_breaks s) <= 100)%nat -> (length (enc_snap s) <= 1100)%nat.
Proof.
  intros (A & B & C & D & E) L. unfold enc_snap. rewrite !app_length.
  pose proof (vfield_len64 1 (s_flags s) ltac:(lia)). pose proof (vfield_len64 2 (s_trap s) ltac:(lia)).
  pose proof (vfield_len64 3 (s_result s) ltac:(lia)). pose proof (vfield_len64 4 (s_time s) ltac:(lia)).
  pose proof (concat_len _ E) as CL.
  destruct (s_breaks s) as [|x l] eqn:EB; [cbn [length]; lia|].
  pose proof (bfield_len 5 (concat (map put_uvarint_bytes (x :: l))) ltac:(lia)) as BL.
  assert (len (concat (map put_uvarint_bytes (x :: l))) < 2 ^ 14) as LL.
  { unfold len. apply Z.le_lt_trans with (Z.of_nat (10 * 100)%nat); [lia|]. reflexivity. }
  specialize (BL LL). lia.
Qed.

Definition few_breaks (m : iman) : Prop :=
  match m_snap m with Some s => (length (s_breaks s) <= 100)%nat | None => True end.

Lemma enc_inst_len m : iman_ok m -> few_breaks m -> (length (enc_inst m) <= 1200)%nat.
Proof.
  intros (A & B & C & D & E & F & G & H & I & J) L. unfold enc_inst. rewrite !app_length.
  pose proof (vfield_len64 1 (m_text m) ltac:(lia)). pose proof (vfield_len32 2 _ ltac:(lia) B).
  pose proof (vfield_len32 3 _ ltac:(lia) C). pose proof (vfield_len32 4 _ ltac:(lia) D).
  pose proof (vfield_len32 5 _ ltac:(lia) E). pose proof (vfield_len32 6 _ ltac:(lia) F).
  pose proof (vfield_len32 7 _ ltac:(lia) G).
  assert (S8 : forall num o, 0 < num < 16 -> opt_ok func_ok o -> (length (mfield num enc_func o) <= 15)%nat).
  { intros num [f|] Hn Ho; cbn [mfield opt_ok] in *; [|cbn; lia].
    pose proof (enc_func_len f Ho). pose proof (bfield_len num (enc_func f) Hn ltac:(unfold len; lia)). lia. }
  pose proof (S8 8 _ ltac:(lia) H). pose proof (S8 9 _ ltac:(lia) I).
  assert (length (mfield 10 enc_snap (m_snap m)) <= 1103)%nat.
  { unfold few_breaks in L. destruct (m_snap m) as [s|]; cbn [mfield opt_ok] in *; [|cbn; lia].
    pose proof (enc_snap_len s J L). pose proof (bfield_len 10 (enc_snap s) ltac:(lia) ltac:(unfold len; lia)). lia. }
  lia.
Qed.

Lemma varints_rt l : Forall (fun x => 0 <= x < 2 ^ 64) l ->
  forall fuel, (length (concat (map put_uvarint_bytes l)) <= fuel)%nat ->
  varints fuel (concat (map put_uvarint_bytes l)) = Ok l.
Proof.
  induction 1 as [|x l H F IH]; intros fuel Hf; cbn [map concat] in *; [destruct fuel; reflexivity|].
  pose proof (put_nonnil x) as K. rewrite app_length in Hf.
  assert (1 <= length (put_uvarint_bytes x))%nat by apply (uvarint_len_pos 9 x).
  destruct fuel as [|fuel]; [lia|]. cbn [varints].
  destruct (put_uvarint_bytes x ++ concat (map put_uvarint_bytes l)) eqn:E.
  { destruct (put_uvarint_bytes x); [congruence|discriminate]. }
  rewrite <- E, get_varint_put by exact H. cbn [bind]. rewrite IH by lia. reflexivity.
Qed.

Lemma u32_u64 v : 0 <= v < 2 ^ 32 -> u32 (u64 v) = v.
Proof. intros H. rewrite u64_id by lia. apply u32_id, H. Qed.
Lemma u64_u64 v : 0 <= v < 2 ^ 64 -> u64 (u64 v) = v.
Proof. intros H. rewrite u64_id by apply u64_bound. apply u64_id, H. Qed.
Lemma s32_u64 v : - 2 ^ 31 <= v < 2 ^ 31 -> s32 (u64 v) = v.
Proof.
  intros H. rewrite <- (s32_id v H) at 2. unfold s32, u64. f_equal.
  rewrite Zplus_mod, <- Znumtheory.Zmod_div_mod; [|lia|lia|exists (2 ^ 32); reflexivity].
  rewrite <- Zplus_mod. reflexivity.
Qed.

Ltac vf_tac v := unfold vf; let Q := fresh "Q" in destruct (v =? 0) eqn:Q; cbn [app merge bind];
  [apply Z.eqb_eq in Q; subst v; reflexivity|].

Lemma dec_func_rt f : func_ok f -> dec_func (enc_func f) func0 = Ok f.
Proof.
  intros [A B]. destruct f as [i a]. cbn [f_index f_addr] in *.
  unfold dec_func, enc_func. cbn [f_index f_addr].
  erewrite Parses_fields.
  2:{ apply Parses_vfield; [lia|]. rewrite <- (app_nil_r (vfield 2 a)). apply Parses_vfield; [lia|constructor]. }
  cbn [bind]. rewrite !merge_app.
  assert (E1 : merge func_step (vf 1 i) func0 = Ok (Func i 0)).
  { vf_tac i. unfold func_step. cbn. rewrite u32_u64 by exact A. reflexivity. }
  rewrite E1. cbn [bind]. rewrite merge_app.
  assert (E2 : merge func_step (vf 2 a) (Func i 0) = Ok (Func i a)).
  { vf_tac a. unfold func_step. cbn. rewrite u32_u64 by exact B. reflexivity. }
  rewrite E2. reflexivity.
Qed.

Lemma dec_snap_rt s : snap_ok s -> (len (enc_snap s) < 2 ^ 60) -> dec_snap (enc_snap s) snap0 = Ok s.
Proof.
  intros (A & B & C & D & E) L. destruct s as [f t r ti br]. cbn [s_flags s_trap s_result s_time s_breaks] in *.
  unfold dec_snap, enc_snap in *. cbn [s_flags s_trap s_result s_time s_breaks] in *.
  set (tail := match br with [] => [] | z :: l0 => bfield 5 (concat (map put_uvarint_bytes (z :: l0))) end) in *.
  set (tl := match br with [] => [] | _ :: _ => [(5, FBytes (concat (map put_uvarint_bytes br)))] end).
  assert (PT : Parses tail tl).
  { subst tail tl. destruct br as [|x br]; [constructor|].
    rewrite <- (app_nil_r (bfield 5 _)). apply Parses_bfield; [lia| |constructor].
    rewrite !len_app in L. unfold bfield in L. rewrite !len_app in L.
    pose proof (len_nonneg (vfield 1 f)); pose proof (len_nonneg (vfield 2 t)); pose proof (len_nonneg (vfield 3 r));
    pose proof (len_nonneg (vfield 4 ti)); pose proof (len_nonneg (key 5 2)).
    pose proof (len_nonneg (put_uvarint_bytes (len (concat (map put_uvarint_bytes (x :: br)))))). lia. }
  erewrite Parses_fields.
  2:{ apply Parses_vfield; [lia|]. apply Parses_vfield; [lia|]. apply Parses_vfield; [lia|].
      apply Parses_vfield; [lia|]. exact PT. }
  cbn [bind]. rewrite !merge_app.
  assert (E1 : merge snap_step (vf 1 f) snap0 = Ok (Snap f 0 0 0 [])).
  { vf_tac f. unfold snap_step. cbn. rewrite u64_u64 by exact A. reflexivity. }
  rewrite E1. cbn [bind]. rewrite merge_app.
  assert (E2 : merge snap_step (vf 2 t) (Snap f 0 0 0 []) = Ok (Snap f t 0 0 [])).
  { vf_tac t. unfold snap_step. cbn. rewrite s32_u64 by exact B. reflexivity. }
  rewrite E2. cbn [bind]. rewrite merge_app.
  assert (E3 : merge snap_step (vf 3 r) (Snap f t 0 0 []) = Ok (Snap f t r 0 [])).
  { vf_tac r. unfold snap_step. cbn. rewrite s32_u64 by exact C. reflexivity. }
  rewrite E3. cbn [bind]. rewrite merge_app.
  assert (E4 : merge snap_step (vf 4 ti) (Snap f t r 0 []) = Ok (Snap f t r ti [])).
  { vf_tac ti. unfold snap_step. cbn. rewrite u64_u64 by exact D. reflexivity. }
  rewrite E4. cbn [bind]. subst tl. destruct br as [|x br]; [reflexivity|].
  cbn [merge]. unfold snap_step. cbn [snd fst]. change (5 =? 5) with true. cbn iota.
  rewrite varints_rt by (assumption || lia). reflexivity.
Qed.

Definition mf {A} (num : Z) (enc : A -> bytes) (o : option A) : list (Z * fval) :=
  match o with None => [] | Some x => [(num, FBytes (enc x))] end.

Lemma Parses_mfield {A} num (enc : A -> bytes) o rest l : 0 < num < 2 ^ 29 ->
  match o with Some x => len (enc x) < 2 ^ 64 | None => True end -> Parses rest l ->
  Parses (mfield num enc o ++ rest) (mf num enc o ++ l).
Proof. intros Hn Ho P. destruct o; cbn [mfield mf app]; [apply Parses_bfield|]; assumption. Qed.

Ltac fld n v := unfold vf; let Q := fresh "Q" in destruct (v =? 0) eqn:Q; cbn [app merge bind];
  [apply Z.eqb_eq in Q; subst v; reflexivity|];
  unfold inst_step; cbn [fst snd]; cbn [Z.eqb Pos.eqb bind].

Theorem dec_inst_rt m : iman_ok m -> few_breaks m -> dec_inst (enc_inst m) = Ok m.
Proof.
  intros OK FB. pose proof OK as (A & B & C & D & E & F & G & H & I & J).
  assert (SL : match m_snap m with Some s => len (enc_snap s) < 2 ^ 60 | None => True end).
  { unfold few_breaks in FB. destruct (m_snap m) as [s|]; [|exact Logic.I]. cbn in J.
    pose proof (enc_snap_len s J FB). unfold len. apply Z.le_lt_trans with (Z.of_nat 1100%nat); [lia|reflexivity]. }
  clear OK FB. destruct m as [a b c d e g i st en sn].
  cbn [m_text m_stack_size m_stack_usage m_globals m_memory m_max_memory m_init m_start m_entry m_snap] in *.
  unfold dec_inst, enc_inst. cbn [m_text m_stack_size m_stack_usage m_globals m_memory m_max_memory m_init m_start m_entry m_snap].
  erewrite Parses_fields.
  2:{ do 7 (apply Parses_vfield; [lia|]).
      apply Parses_mfield; [lia|destruct st as [f|]; [pose proof (enc_func_len f H); unfold len; lia|exact Logic.I]|].
      apply Parses_mfield; [lia|destruct en as [f|]; [pose proof (enc_func_len f I); unfold len; lia|exact Logic.I]|].
      rewrite <- (app_nil_r (mfield 10 _ _)).
      apply Parses_mfield; [lia|destruct sn as [s|]; [lia|exact Logic.I]|constructor]. }
  cbn [bind]. rewrite merge_app.
  assert (E1 : merge inst_step (vf 1 a) iman0 = Ok (IMan a 0 0 0 0 0 0 None None None)).
  { fld 1 a. rewrite u64_u64 by exact A. reflexivity. }
  rewrite E1. cbn [bind]. rewrite merge_app. clear E1.
  assert (E1 : merge inst_step (vf 2 b) (IMan a 0 0 0 0 0 0 None None None) = Ok (IMan a b 0 0 0 0 0 None None None)).
  { fld 2 b. rewrite u32_u64 by exact B. reflexivity. }
  rewrite E1. cbn [bind]. rewrite merge_app. clear E1.
  assert (E1 : merge inst_step (vf 3 c) (IMan a b 0 0 0 0 0 None None None) = Ok (IMan a b c 0 0 0 0 None None None)).
  { fld 3 c. rewrite u32_u64 by exact C. reflexivity. }
  rewrite E1. cbn [bind]. rewrite merge_app. clear E1.
  assert (E1 : merge inst_step (vf 4 d) (IMan a b c 0 0 0 0 None None None) = Ok (IMan a b c d 0 0 0 None None None)).
  { fld 4 d. rewrite u32_u64 by exact D. reflexivity. }
  rewrite E1. cbn [bind]. rewrite merge_app. clear E1.
  assert (E1 : merge inst_step (vf 5 e) (IMan a b c d 0 0 0 None None None) = Ok (IMan a b c d e 0 0 None None None)).
  { fld 5 e. rewrite u32_u64 by exact E. reflexivity. }
  rewrite E1. cbn [bind]. rewrite merge_app. clear E1.
  assert (E1 : merge inst_step (vf 6 g) (IMan a b c d e 0 0 None None None) = Ok (IMan a b c d e g 0 None None None)).
  { fld 6 g. rewrite u32_u64 by exact F. reflexivity. }
  rewrite E1. cbn [bind]. rewrite merge_app. clear E1.
  assert (E1 : merge inst_step (vf 7 i) (IMan a b c d e g 0 None None None) = Ok (IMan a b c d e g i None None None)).
  { fld 7 i. rewrite u32_u64 by exact G. reflexivity. }
  rewrite E1. cbn [bind]. rewrite merge_app. clear E1.
  assert (E1 : merge inst_step (mf 8 enc_func st) (IMan a b c d e g i None None None) = Ok (IMan a b c d e g i st None None)).
  { destruct st as [f|]; [|reflexivity]. cbn [mf merge]. unfold inst_step. cbn [fst snd]. cbn [Z.eqb Pos.eqb bind orelse].
    rewrite dec_func_rt by exact H. reflexivity. }
  rewrite E1. cbn [bind]. rewrite merge_app. clear E1.
  assert (E1 : merge inst_step (mf 9 enc_func en) (IMan a b c d e g i st None None) = Ok (IMan a b c d e g i st en None)).
  { destruct en as [f|]; [|reflexivity]. cbn [mf merge]. unfold inst_step. cbn [fst snd]. cbn [Z.eqb Pos.eqb bind orelse].
    rewrite dec_func_rt by exact I. reflexivity. }
  rewrite E1. cbn [bind]. rewrite merge_app. clear E1.
  assert (E1 : merge inst_step (mf 10 enc_snap sn) (IMan a b c d e g i st en None) = Ok (IMan a b c d e g i st en sn)).
  { destruct sn as [s|]; [|reflexivity]. cbn [mf merge]. unfold inst_step. cbn [fst snd]. cbn [Z.eqb Pos.eqb bind orelse].
    rewrite dec_snap_rt by assumption. reflexivity. }
  rewrite E1. reflexivity.
Qed.

(* The manifest area. *)
Lemma payload_bytes tag marsh rest : 0 <= tag < 2 ^ 32 -> len marsh + 8 <= 4096 ->
  manifest_payload tag (manifest_bytes tag marsh ++ rest) = Ok marsh.
Proof.
  intros T L. unfold manifest_payload, manifest_bytes.
  pose proof (len_nonneg marsh) as N.
  rewrite <- !app_assoc.
  rewrite firstn_app_exact by (rewrite length_le; reflexivity).
  rewrite unle_le. change (256 ^ Z.of_nat 4) with (2 ^ 32). rewrite Z.mod_small by exact T.
  rewrite Z.eqb_refl. cbn [negb].
  rewrite skipn_app_exact by (rewrite length_le; reflexivity).
  rewrite firstn_app_exact by (rewrite length_le; reflexivity).
  rewrite unle_le. change (256 ^ Z.of_nat 4) with (2 ^ 32). unfold manifestHeaderSize.
  rewrite u32_id by lia. rewrite Z.mod_small by lia.
  replace ((8 + len marsh <? 8) || (8 + len marsh >? Z.of_nat ManifestMaxSize)) with false
    by (unfold ManifestMaxSize; symmetry; apply orb_false_iff; split; lia).
  change 8%nat with (4 + 4)%nat. rewrite <- skipn_skipn.
  rewrite skipn_app_exact by (rewrite length_le; reflexivity).
  rewrite skipn_app_exact by (rewrite length_le; reflexivity).
  rewrite firstn_app_exact; [reflexivity|]. unfold len. lia.
Qed.

Lemma payload_too_long tag marsh rest : 0 <= tag < 2 ^ 32 -> 4088 < len marsh < 2 ^ 32 - 8 ->
  manifest_payload tag (manifest_bytes tag marsh ++ rest) = Err.
Proof.
  intros T L. unfold manifest_payload, manifest_bytes.
  rewrite <- !app_assoc.
  rewrite firstn_app_exact by (rewrite length_le; reflexivity).
  rewrite unle_le. change (256 ^ Z.of_nat 4) with (2 ^ 32). rewrite Z.mod_small by exact T.
  rewrite Z.eqb_refl. cbn [negb].
  rewrite skipn_app_exact by (rewrite length_le; reflexivity).
  rewrite firstn_app_exact by (rewrite length_le; reflexivity).
  rewrite unle_le. change (256 ^ Z.of_nat 4) with (2 ^ 32). unfold manifestHeaderSize.
  rewrite u32_id by lia. rewrite Z.mod_small by lia.
  replace ((8 + len marsh <? 8) || (8 + len marsh >? Z.of_nat ManifestMaxSize)) with true; [reflexivity|].
  unfold ManifestMaxSize; symmetry; apply orb_true_iff; right. lia.
Qed.
