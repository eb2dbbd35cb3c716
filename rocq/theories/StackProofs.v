(* StackProofs.v: lemmas for StackProps.v *)
From Verif Require Import StackSpec BaseLemmas ListLemmas.

Lemma le_app n m a b : 0 <= a < 256 ^ Z.of_nat n -> le (n + m) (a + 256 ^ Z.of_nat n * b) = le n a ++ le m b.
Proof.
  revert a; induction n as [|n IH]; intros a H.
  - change (256 ^ Z.of_nat 0) with 1 in *. replace (a + 1 * b) with b by lia. reflexivity.
  - cbn [Nat.add le app].
    assert (E: 256 ^ Z.of_nat (S n) = 256 * 256 ^ Z.of_nat n) by (rewrite Nat2Z.inj_succ, Z.pow_succ_r by lia; reflexivity).
    rewrite E in *.
    replace (a + 256 * 256 ^ Z.of_nat n * b) with (a + 256 ^ Z.of_nat n * b * 256) by ring.
    rewrite Z.mod_add by lia. rewrite Z.div_add by lia. f_equal. apply IH.
    split; [apply Z.div_pos; lia|apply Z.div_lt_upper_bound; lia].
Qed.
Lemma le_mod n v : le n (v mod 256 ^ Z.of_nat n) = le n v.
Proof.
  assert (P: 0 < 256 ^ Z.of_nat n) by (apply Z.pow_pos_nonneg; lia).
  transitivity (le n (v mod 256 ^ Z.of_nat n + 256 ^ Z.of_nat n * (v / 256 ^ Z.of_nat n))).
  - pose proof (le_app n 0 (v mod 256 ^ Z.of_nat n) (v / 256 ^ Z.of_nat n)) as H.
    rewrite Nat.add_0_r in H. rewrite H by (apply Z.mod_pos_bound; lia). cbn. now rewrite app_nil_r.
  - f_equal. rewrite (Z.div_mod v (256 ^ Z.of_nat n)) at 3 by lia. lia.
Qed.
Lemma le_u64 v : le 8 (u64 v) = le 8 v.
Proof. exact (le_mod 8 v). Qed.
Lemma le_s32 v : le 4 (s32 v) = le 4 v.
Proof.
  rewrite <- (le_mod 4 (s32 v)), <- (le_mod 4 v). f_equal. change (256 ^ Z.of_nat 4) with (2 ^ 32). unfold s32.
  rewrite Zminus_mod, Zmod_mod, <- Zminus_mod. f_equal. lia.
Qed.

Lemma get_le_app n v r : get_le 0 n (le n v ++ r) = Ok (v mod 256 ^ Z.of_nat n).
Proof.
  unfold get_le. rewrite slice_ok by (rewrite app_length, length_le; lia). cbn [bind skipn].
  rewrite firstn_app_exact by now rewrite length_le. now rewrite unle_le.
Qed.

Lemma word_eq off idx : 0 <= idx < 2 ^ 32 ->
  le 8 (Z.lor (u64 (Z.shiftl (u64 off) 32)) idx) = le 4 idx ++ le 4 off.
Proof.
  intros H.
  assert (E: Z.lor (u64 (Z.shiftl (u64 off) 32)) idx = idx + 2 ^ 32 * (off mod 2 ^ 32)).
  { assert (F: u64 (Z.shiftl (u64 off) 32) = (off mod 2 ^ 32) * 2 ^ 32).
    { unfold u64. rewrite Z.shiftl_mul_pow2 by lia. change (2 ^ 64) with (2 ^ 32 * 2 ^ 32).
      rewrite Z.mul_mod_distr_r by lia. rewrite Z.rem_mul_r by lia.
      rewrite (Z.mul_comm (2 ^ 32) ((off / 2 ^ 32) mod 2 ^ 32)), Z.mod_add, Zmod_mod by lia. reflexivity. }
    rewrite F. rewrite <- Z.lxor_lor.
    - rewrite <- Z.add_nocarry_lxor; [lia|].
      apply Z.bits_inj'. intros n Hn. rewrite Z.land_spec, Z.bits_0.
      destruct (Z.ltb_spec n 32).
      + rewrite Z.mul_pow2_bits_low by lia. reflexivity.
      + rewrite (Z.bits_above_log2 idx n), andb_false_r; auto; [lia|].
        destruct (Z.eq_dec idx 0); [subst; cbn; lia|]. apply Z.log2_lt_pow2; [lia|].
        apply Z.lt_le_trans with (2 ^ 32); [lia|]. apply Z.pow_le_mono_r; lia.
    - apply Z.bits_inj'. intros n Hn. rewrite Z.land_spec, Z.bits_0.
      destruct (Z.ltb_spec n 32).
      + rewrite Z.mul_pow2_bits_low by lia. reflexivity.
      + rewrite (Z.bits_above_log2 idx n), andb_false_r; auto; [lia|].
        destruct (Z.eq_dec idx 0); [subst; cbn; lia|]. apply Z.log2_lt_pow2; [lia|].
        apply Z.lt_le_trans with (2 ^ 32); [lia|]. apply Z.pow_le_mono_r; lia. }
  rewrite E. change 8%nat with (4 + 4)%nat. change (2 ^ 32) with (256 ^ Z.of_nat 4).
  rewrite le_app by exact H. now rewrite le_mod.
Qed.

(* ---- the call map ---- *)

Lemma find_site_none l i ret : (forall s, In s l -> fst s <> ret) -> find_site l i ret = None.
Proof.
  revert i; induction l as [|[r o] t IH]; intros i H; cbn; auto.
  destruct (Z.eqb_spec r ret) as [->|_]; [exfalso; apply (H (ret, o)); [now left|reflexivity]|].
  apply IH. intros s Hs. apply H. now right.
Qed.
Lemma find_site_nth l i n : increasing (map fst l) -> (n < length l)%nat ->
  find_site l i (fst (nth n l (0, 0))) = Some ((i + n)%nat, snd (nth n l (0, 0))).
Proof.
  revert i n; induction l as [|[r o] t IH]; intros i n W H; cbn [length] in H; [lia|].
  destruct n as [|n]; cbn [nth fst find_site snd].
  - rewrite Z.eqb_refl. now rewrite Nat.add_0_r.
  - assert (L: r < fst (nth n t (0, 0))).
    { pose proof (W 0%nat (S n)) as L. cbn [map nth fst] in L.
      rewrite (map_nth fst t (0, 0) n : nth n (map fst t) 0 = _) in L. apply L. cbn. rewrite map_length. lia. }
    destruct (Z.eqb_spec r (fst (nth n t (0, 0)))); [lia|].
    rewrite IH; [f_equal; f_equal; lia| |lia].
    intros a b Hab. rewrite map_length in Hab. specialize (W (S a) (S b)). cbn [map nth] in W. apply W. cbn. rewrite map_length. lia.
Qed.
Lemma find_site_sound l i ret k off : find_site l i ret = Some (k, off) ->
  (i <= k)%nat /\ (k - i < length l)%nat /\ nth (k - i) l (0, 0) = (ret, off).
Proof.
  revert i; induction l as [|[r o] t IH]; intros i; cbn [find_site]; [discriminate|].
  destruct (Z.eqb_spec r ret) as [->|N].
  - intros H. inversion H. rewrite Nat.sub_diag. cbn. repeat split; lia.
  - intros H. apply IH in H as (A & B & C). repeat split; [lia|cbn; lia|].
    replace (k - i)%nat with (S (k - S i)) by lia. exact C.
Qed.

Lemma filter_prefix l a f : increasing l -> (f < length l)%nat -> nth f l 0 <= a ->
  (forall g, (f < g < length l)%nat -> a < nth g l 0) -> length (filter (fun x => x <=? a) l) = S f.
Proof.
  revert f; induction l as [|x t IH]; intros f W Hf H1 H2; [cbn in Hf; lia|].
  assert (Wt: increasing t). { intros i j Hij. specialize (W (S i) (S j)). cbn in W. apply W. lia. }
  cbn [filter]. destruct f as [|f].
  - cbn [nth] in H1. destruct (Z.leb_spec x a); [|lia]. cbn [length]. f_equal.
    assert (G: filter (fun x => x <=? a) t = []).
    { destruct (filter (fun x => x <=? a) t) as [|y l] eqn:E; auto. exfalso.
      assert (I: In y (filter (fun x => x <=? a) t)) by (rewrite E; now left).
      apply filter_In in I as [I J]. apply In_nth with (d := 0) in I as (n & N1 & N2).
      specialize (H2 (S n)). cbn [nth length] in H2. lia. }
    now rewrite G.
  - cbn [nth] in H1. assert (x < nth f t 0). { specialize (W 0%nat (S f)). cbn [nth length] in *. apply W. lia. }
    destruct (Z.leb_spec x a); [|lia]. cbn [length]. f_equal. apply IH; auto; [cbn in Hf; lia|].
    intros g Hg. specialize (H2 (S g)). cbn [nth length] in H2. apply H2. lia.
Qed.
Lemma func_index_in c a f : wf_code c -> in_func c a f -> func_index c a = f.
Proof.
  intros W (A & B & C). unfold func_index. rewrite (filter_prefix _ _ f); auto; [lia|apply W].
Qed.
Lemma in_func_exists c a : wf_code c -> in_init c a = false -> in_func c a (func_index c a).
Proof.
  intros W H. unfold in_init in H.
  assert (X: forall l, increasing l -> match l with [] => False | x :: _ => x <= a end ->
    exists f, (f < length l)%nat /\ nth f l 0 <= a /\ forall g, (f < g < length l)%nat -> a < nth g l 0).
  { induction l as [|x t IH]; intros Wl Hl; [contradiction|].
    destruct t as [|y t].
    - exists 0%nat. cbn. repeat split; try lia.
    - destruct (Z_lt_le_dec a y) as [L|L].
      + exists 0%nat. cbn [nth length]. repeat split; try lia. intros g Hg.
        destruct g as [|[|g]]; [lia|cbn; lia|].
        specialize (Wl 1%nat (S (S g))). cbn [nth length] in *. lia.
      + destruct IH as (f & F1 & F2 & F3); auto.
        { intros i j Hij. specialize (Wl (S i) (S j)). cbn [nth length] in *. apply Wl. lia. }
        exists (S f). cbn [length nth] in *. repeat split; try lia. intros g Hg. destruct g as [|g]; [lia|].
        cbn [nth]. apply F3. lia. }
  destruct (X (funcs c) (wf_funcs c W)) as (f & F1 & F2 & F3).
  { destruct (funcs c) as [|x t]; [discriminate|]. lia. }
  replace (func_index c a) with f; [repeat split; auto|].
  symmetry. apply func_index_in; auto. repeat split; auto.
Qed.
Lemma in_func_not_init c a f : wf_code c -> in_func c a f -> in_init c a = false.
Proof.
  intros W (A & B & _). unfold in_init. destruct (funcs c) as [|x t] eqn:E; [cbn in A; lia|].
  destruct f as [|f]; [cbn in B; lia|].
  pose proof (wf_funcs c W 0%nat (S f)) as L. rewrite E in L. cbn [nth length] in *. lia.
Qed.
Lemma in_init_spec c a : wf_code c ->
  in_init c a = true <-> forall f, (f < length (funcs c))%nat -> a < nth f (funcs c) 0.
Proof.
  intros W. unfold in_init. pose proof (wf_funcs c W) as L. destruct (funcs c) as [|x t] eqn:E.
  - split; auto. cbn. lia.
  - split.
    + intros H f Hf. destruct f as [|f]; [cbn; lia|]. specialize (L 0%nat (S f)). cbn [nth length] in *. lia.
    + intros H. specialize (H 0%nat). cbn in H. lia.
Qed.

Lemma site_bounds c i : wf_code c -> (i < length (sites c))%nat ->
  0 <= ret_of c i < 2 ^ 32 /\ 0 <= off_of c i < 2 ^ 31.
Proof.
  intros W H. pose proof (wf_rets c W) as R. rewrite Forall_forall in R. apply (R (nth i (sites c) (0, 0))). now apply nth_In.
Qed.
Lemma find_site_of c i : wf_code c -> (i < length (sites c))%nat ->
  find_site (sites c) 0 (ret_of c i) = Some (i, off_of c i).
Proof. intros W H. unfold ret_of, off_of. rewrite find_site_nth; auto. apply W. Qed.

Lemma ret_sub text ret : 0 <= ret < 2 ^ 32 -> u64 ((text + ret) mod 256 ^ Z.of_nat 8 - text) = ret.
Proof.
  intros H. change (256 ^ Z.of_nat 8) with (2 ^ 64). unfold u64.
  rewrite Zminus_mod_idemp_l. replace (text + ret - text) with ret by lia. apply Z.mod_small. lia.
Qed.

Lemma portable_site_word c i : wf_code c -> (i < length (sites c))%nat ->
  le 8 (Z.lor (u64 (Z.shiftl (u64 (off_of c i)) 32)) (Z.of_nat i)) = portable_site c i.
Proof.
  intros W H. apply word_eq. pose proof (wf_nsites c W). unfold len in *. lia.
Qed.

(* ---- export ---- *)

Lemma length_native_frames c text l : length (native_frames c text l) = length (portable_frames c l).
Proof.
  unfold native_frames, portable_frames, portable_site.
  induction l as [|fr l IH]; cbn [flat_map]; auto. rewrite !app_length, IH, !length_le. lia.
Qed.

Lemma land7 x : Z.land x 7 = x mod 8.
Proof. exact (Z.land_ones x 3 ltac:(lia)). Qed.
Lemma mod8_off x : x mod 8 = 0 -> negb (Z.land x 7 =? 0) = false.
Proof. intros H. rewrite land7, H. reflexivity. Qed.

Lemma export_loop_frames c text args l i rest : wf_code c -> valid_frames c args l ->
  (i < length (sites c))%nat -> in_init c (ret_of c i) = true ->
  forall fuel, (S (length l) <= fuel)%nat ->
  export_loop fuel c text (native_frames c text l ++ le 8 (text + ret_of c i) ++ rest)
  = Ok (portable_frames c l ++ portable_site c i, off_of c i, rest).
Proof.
  intros W V Hi I. induction V as [|args fr l f sig Hs F T M L B A V IH]; intros fuel Hf.
  - destruct fuel as [|fuel]; [lia|]. cbn [native_frames portable_frames flat_map app export_loop].
    destruct (le 8 (text + ret_of c i) ++ rest) as [|x t] eqn:E; [discriminate|]. rewrite <- E. clear E x t.
    rewrite get_le_app. cbn [bind].
    pose proof (site_bounds c i W Hi) as [R O].
    rewrite ret_sub by auto. unfold maxUint32.
    destruct (Z.gtb_spec (ret_of c i) (2 ^ 32 - 1)); [lia|].
    rewrite find_site_of by auto. rewrite I. rewrite portable_site_word by auto.
    rewrite skipn_app_exact by now rewrite length_le. reflexivity.
  - destruct fuel as [|fuel]; [lia|]. cbn [native_frames portable_frames flat_map]. rewrite <- !app_assoc.
    match goal with |- export_loop _ _ _ (le 8 ?v ++ ?r) = _ => set (R := r) end.
    cbn [export_loop].
    destruct (le 8 (text + ret_of c (site fr)) ++ R) as [|x t] eqn:E; [discriminate|]. rewrite <- E. clear E x t.
    rewrite get_le_app. cbn [bind].
    pose proof (site_bounds c _ W Hs) as [Rb Ob].
    rewrite ret_sub by auto. unfold maxUint32.
    destruct (Z.gtb_spec (ret_of c (site fr)) (2 ^ 32 - 1)); [lia|].
    rewrite find_site_of by auto. rewrite (in_func_not_init c _ f W F).
    rewrite portable_site_word by auto.
    rewrite skipn_app_exact by now rewrite length_le.
    rewrite (mod8_off _ M).
    pose proof (len_nonneg (vars fr)) as Ln.
    destruct (Z.eqb_spec (off_of c (site fr)) 0); [lia|]. cbn [orb].
    destruct (Z.ltb_spec (off_of c (site fr) - 8) 0); [lia|]. cbn [orb].
    assert (LR: off_of c (site fr) - 8 <= len R). { unfold R. rewrite len_app. pose proof (len_nonneg (flat_map (fun fr0 : frame => le 8 (text + ret_of c (site fr0)) ++ vars fr0) l ++ le 8 (text + ret_of c i) ++ rest)). lia. }
    destruct (Z.gtb_spec (off_of c (site fr) - 8) (len R)); [lia|].
    assert (Lv: Z.to_nat (off_of c (site fr) - 8) = length (vars fr)) by (unfold len in *; lia).
    rewrite Lv. unfold R. rewrite firstn_app_exact, skipn_app_exact by reflexivity.
    fold (native_frames c text l). rewrite IH by (cbn in Hf; lia). cbn [bind]. fold (portable_frames c l).
    reflexivity.
Qed.

Lemma find_func_nth l i n : increasing l -> (n < length l)%nat -> find_func l i (nth n l 0) = Some (i + n)%nat.
Proof.
  revert i n; induction l as [|x t IH]; intros i n W H; cbn [length] in H; [lia|].
  destruct n as [|n]; cbn [nth find_func].
  - rewrite Z.eqb_refl. now rewrite Nat.add_0_r.
  - assert (x < nth n t 0) by (specialize (W 0%nat (S n)); cbn [nth length] in W; apply W; lia).
    destruct (Z.eqb_spec x (nth n t 0)); [lia|]. rewrite IH; [f_equal; lia| |lia].
    intros a b Hab. specialize (W (S a) (S b)). cbn [nth length] in W. apply W. lia.
Qed.

Lemma vars_mod8 c args l : valid_frames c args l -> len (portable_frames c l) mod 8 = 0.
Proof.
  induction 1 as [|args fr l f sig Hs F T M L B A V IH]; [reflexivity|].
  unfold portable_frames in *. cbn [flat_map]. unfold portable_site at 1. rewrite !len_app. unfold len at 1 2. rewrite !length_le.
  rewrite L. change (Z.of_nat 4) with 4.
  replace (4 + 4 + (off_of c (site fr) - 8) + len (flat_map (fun fr0 : frame => portable_site c (site fr0) ++ vars fr0) l))
    with (off_of c (site fr) + len (flat_map (fun fr0 : frame => portable_site c (site fr0) ++ vars fr0) l)) by lia.
  rewrite Z.add_mod, M, IH by lia. reflexivity.
Qed.

Lemma frames_length_le c l : (length l <= length (portable_frames c l))%nat.
Proof.
  induction l as [|fr l IH]; cbn [portable_frames flat_map length]; [lia|]. unfold portable_frames, portable_site in *.
  rewrite !app_length, !length_le. lia.
Qed.

Lemma export_native c text s : wf_code c -> valid c s -> exportStack c text (native c text s) = Ok (portable c s).
Proof.
  intros W (V & Hb & I & U). apply in_init_spec in I; auto.
  unfold exportStack, native, portable.
  set (tail := native_under c (under s)).
  assert (Lt: length tail = 8%nat \/ length tail = 0%nat) by (unfold tail, native_under; destruct (under s) as [[f|]|]; rewrite ?length_le; auto).
  assert (LM: len (native_frames c text (frames s) ++ le 8 (text + ret_of c (bottom s)) ++ tail) mod 8 = 0).
  { rewrite !len_app. unfold len at 1 2 3. rewrite length_native_frames, length_le.
    pose proof (vars_mod8 c _ _ V) as M. unfold len in M. change (Z.of_nat 8) with 8.
    rewrite Z.add_mod, M by lia. destruct Lt as [->| ->]; reflexivity. }
  rewrite (mod8_off _ LM).
  destruct (Z.eqb_spec (len (native_frames c text (frames s) ++ le 8 (text + ret_of c (bottom s)) ++ tail)) 0) as [E|_].
  { exfalso. rewrite !len_app in E. pose proof (len_nonneg (native_frames c text (frames s))). pose proof (len_nonneg tail). unfold len in E at 2. rewrite length_le in E. lia. }
  cbn [orb]. rewrite (export_loop_frames c text 0); auto.
  2:{ rewrite !app_length, length_le, length_native_frames. pose proof (frames_length_le c (frames s)). lia. }
  cbn [bind]. unfold tail, native_under, portable_under. clear tail Lt LM. unfold valid_under in U. destruct (under s) as [[f|]|].
  - destruct U as (E & Hf & _). rewrite E. cbn [Z.eqb Pos.eqb].
    replace (le 8 (nth f (funcs c) 0)) with (le 8 (nth f (funcs c) 0) ++ []) by apply app_nil_r.
    rewrite get_le_app. cbn [bind].
    pose proof (wf_addrs c W) as Ad. rewrite Forall_forall in Ad. pose proof (Ad _ (nth_In _ 0 Hf)) as Af.
    rewrite Z.mod_small by (change (256 ^ Z.of_nat 8) with (2 ^ 64); lia).
    destruct (Z.eqb_spec (nth f (funcs c) 0) 0); [lia|].
    rewrite u32_id by lia. rewrite find_func_nth; auto; [|apply W]. cbn [Nat.add].
    rewrite u32_id by (pose proof (wf_nfuncs c W); unfold len in *; lia).
    rewrite skipn_app_exact by now rewrite length_le. now rewrite <- app_assoc.
  - rewrite U. cbn [Z.eqb Pos.eqb].
    replace (le 8 0) with (le 8 0 ++ []) by apply app_nil_r.
    rewrite get_le_app. cbn [bind].
    rewrite skipn_app_exact by now rewrite length_le. change (0 mod 256 ^ Z.of_nat 8 =? 0) with true. cbv iota. now rewrite <- app_assoc.
  - rewrite U. cbn [Z.eqb bind app]. now rewrite app_nil_r.
Qed.

(* ---- import ---- *)

Lemma unle_app a b : unle (a ++ b) = unle a + 256 ^ len a * unle b.
Proof.
  unfold len. induction a as [|x t IH]; [cbn [app unle length Z.of_nat Z.pow]; lia|].
  cbn [app unle length]. rewrite IH, Nat2Z.inj_succ, Z.pow_succ_r by lia. lia.
Qed.
Lemma unle_pair a b : 0 <= a < 2 ^ 32 -> unle (le 4 a ++ le 4 b) = a + 2 ^ 32 * (b mod 2 ^ 32).
Proof.
  intros H. rewrite unle_app, !unle_le. unfold len. rewrite length_le. change (256 ^ Z.of_nat 4) with (2 ^ 32).
  rewrite (Z.mod_small a) by lia. reflexivity.
Qed.
Lemma get_pair a b r : get_le 0 8 ((le 4 a ++ le 4 b) ++ r) = Ok (unle (le 4 a ++ le 4 b)).
Proof.
  unfold get_le. rewrite slice_ok by (rewrite !app_length, !length_le; lia). cbn [bind skipn].
  now rewrite firstn_app_exact by (rewrite app_length, !length_le; lia).
Qed.
Lemma pair_low a b : 0 <= a < 2 ^ 32 -> u32 (a + 2 ^ 32 * b) = a.
Proof. intros H. unfold u32. rewrite (Z.mul_comm (2 ^ 32)), Z.mod_add by lia. now rewrite Z.mod_small by lia. Qed.
Lemma pair_high a b : 0 <= a < 2 ^ 32 -> Z.shiftr (a + 2 ^ 32 * b) 32 = b.
Proof.
  intros H. rewrite Z.shiftr_div_pow2 by lia. rewrite (Z.mul_comm (2 ^ 32)), Z.div_add by lia. rewrite Z.div_small by lia. lia.
Qed.

Lemma import_loop_frames c text args l i rest : wf_code c -> valid_frames c args l ->
  (i < length (sites c))%nat -> in_init c (ret_of c i) = true ->
  forall fuel, (S (length l) <= fuel)%nat ->
  import_loop fuel c text args (portable_frames c l ++ portable_site c i ++ rest)
  = Ok (native_frames c text l ++ le 8 (text + ret_of c i), off_of c i, 0%nat, rest).
Proof.
  intros W V Hi I.
  assert (Site: forall i R, (i < length (sites c))%nat -> get_le 0 8 (portable_site c i ++ R) = Ok (Z.of_nat i + 2 ^ 32 * off_of c i)).
  { intros j R Hj. unfold portable_site. rewrite get_pair, unle_pair by (pose proof (wf_nsites c W); unfold len in *; lia).
    f_equal. f_equal. f_equal. apply Z.mod_small. pose proof (site_bounds c j W Hj). lia. }
  assert (Len: forall i, length (portable_site c i) = 8%nat) by (intros; unfold portable_site; now rewrite app_length, !length_le).
  assert (N: forall j, (j < length (sites c))%nat ->
     u32 (Z.of_nat j + 2 ^ 32 * off_of c j) = Z.of_nat j /\ s32 (Z.shiftr (Z.of_nat j + 2 ^ 32 * off_of c j) 32) = off_of c j /\
     (Z.of_nat j >=? u32 (len (sites c))) = false /\ Z.to_nat (Z.of_nat j) = j).
  { intros j Hj. pose proof (wf_nsites c W). pose proof (site_bounds c j W Hj).
    rewrite pair_low, pair_high by (unfold len in *; lia). rewrite s32_id by lia. rewrite u32_id by (unfold len in *; lia).
    rewrite Nat2Z.id. repeat split. unfold len. destruct (Z.geb_spec (Z.of_nat j) (Z.of_nat (length (sites c)))); auto; lia. }
  induction V as [|args fr l f sig Hs F T M L B A V IH]; intros fuel Hf.
  - destruct fuel as [|fuel]; [lia|]. cbn [native_frames portable_frames flat_map app import_loop].
    destruct (portable_site c i ++ rest) as [|x t] eqn:E; [discriminate|]. rewrite <- E. clear E x t.
    rewrite Site by auto. cbn [bind].
    destruct (N i Hi) as (-> & -> & -> & ->). 
    rewrite (surjective_pairing (nth i (sites c) (0, 0))). fold (ret_of c i) (off_of c i).
    rewrite Z.eqb_refl. cbn [negb]. rewrite I. rewrite le_u64. now rewrite skipn_app_exact by now rewrite Len.
  - destruct fuel as [|fuel]; [lia|]. cbn [native_frames portable_frames flat_map]. rewrite <- !app_assoc.
    match goal with |- import_loop _ _ _ _ (portable_site _ _ ++ ?r) = _ => set (R := r) end.
    cbn [import_loop].
    destruct (portable_site c (site fr) ++ R) as [|x t] eqn:E; [discriminate|]. rewrite <- E. clear E x t.
    rewrite Site by auto. cbn [bind].
    destruct (N (site fr) Hs) as (-> & -> & -> & ->). 
    rewrite (surjective_pairing (nth (site fr) (sites c) (0, 0))). fold (ret_of c (site fr)) (off_of c (site fr)).
    rewrite Z.eqb_refl. cbn [negb]. rewrite (in_func_not_init c _ f W F). rewrite le_u64.
    rewrite skipn_app_exact by now rewrite Len. rewrite (mod8_off _ M).
    destruct (Z.ltb_spec (off_of c (site fr) - 8) (Z.of_nat args * 8)); [lia|].
    assert (LR: off_of c (site fr) - 8 <= len R) by (unfold R; rewrite len_app;
      match goal with |- _ <= _ + len ?x => pose proof (len_nonneg x) end; lia).
    destruct (Z.gtb_spec (off_of c (site fr) - 8) (len R)); [lia|].
    rewrite find_site_of by auto. rewrite !Z.eqb_refl. cbn [negb orb].
    rewrite (func_index_in c _ f W F). destruct T as (t & T1 & T2). rewrite T1, T2.
    assert (Lv: Z.to_nat (off_of c (site fr) - 8) = length (vars fr)) by (unfold len in *; lia).
    rewrite Lv. unfold R. rewrite firstn_app_exact, skipn_app_exact by reflexivity.
    fold (portable_frames c l). rewrite IH by (cbn in Hf; lia). cbn [bind]. reflexivity.
Qed.

Lemma import_portable c text s : wf_code c -> valid c s -> importStack c text (portable c s) = Ok (native c text s).
Proof.
  intros W (V & Hb & I & U). apply in_init_spec in I; auto.
  unfold importStack, native, portable.
  set (tail := portable_under (under s)).
  assert (Lt: length tail = 8%nat \/ length tail = 0%nat) by (unfold tail, portable_under; destruct (under s) as [[f|]|]; rewrite ?length_le; auto).
  assert (LM: len (portable_frames c (frames s) ++ portable_site c (bottom s) ++ tail) mod 8 = 0).
  { rewrite !len_app. unfold len at 2 3. unfold portable_site. rewrite app_length, !length_le.
    pose proof (vars_mod8 c _ _ V) as M. change (Z.of_nat (4 + 4)) with 8.
    rewrite Z.add_mod, M by lia. destruct Lt as [->| ->]; reflexivity. }
  rewrite (mod8_off _ LM).
  destruct (Z.eqb_spec (len (portable_frames c (frames s) ++ portable_site c (bottom s) ++ tail)) 0) as [E|_].
  { exfalso. rewrite !len_app in E. pose proof (len_nonneg (portable_frames c (frames s))). pose proof (len_nonneg tail). change (len (portable_site c (bottom s))) with 8 in E. lia. }
  cbn [orb]. rewrite (import_loop_frames c text 0); auto.
  2:{ rewrite !app_length. unfold portable_site. rewrite app_length, !length_le. pose proof (frames_length_le c (frames s)). lia. }
  cbn [bind Nat.ltb Nat.leb]. unfold tail, native_under, portable_under. clear tail Lt LM. unfold valid_under in U.
  assert (G: forall v, 0 <= v < 2 ^ 32 -> get_le 0 4 (le 8 v) = Ok v).
  { intros v Hv. pose proof (le_app 4 4 v 0 ltac:(exact Hv)) as X. rewrite Z.mul_0_r, Z.add_0_r in X. change (4 + 4)%nat with 8%nat in X. rewrite X.
    rewrite get_le_app. f_equal. apply Z.mod_small. exact Hv. }
  destruct (under s) as [[f|]|].
  - destruct U as (E & Hf & sig & (t & T1 & T2) & Te). rewrite E. cbn [Z.eqb Pos.eqb].
    pose proof (wf_nfuncs c W) as Nf. unfold len in Nf. rewrite G by lia. cbn [bind].
    unfold maxUint32. destruct (Z.eqb_spec (Z.of_nat f) (2 ^ 32 - 1)); [lia|]. cbn [negb].
    unfold len. rewrite u32_id by lia. destruct (Z.geb_spec (Z.of_nat f) (Z.of_nat (length (funcs c)))); [lia|].
    rewrite Nat2Z.id, T1, T2, Te. cbn [bind]. rewrite skipn_all2 by now rewrite length_le. now rewrite <- app_assoc.
  - rewrite U. cbn [Z.eqb Pos.eqb]. rewrite G by lia. cbn [bind]. change (negb (2 ^ 32 - 1 =? maxUint32)) with false. cbv iota. cbn [bind].
    rewrite skipn_all2 by now rewrite length_le. now rewrite <- app_assoc.
  - rewrite U. cbn [Z.eqb bind app]. now rewrite app_nil_r.
Qed.

(* ---- import of arbitrary bytes ---- *)

Lemma import_loop_sound c text : wf_code c -> forall fuel args buf p off v rest,
  is_bytes buf -> len buf mod 8 = 0 ->
  import_loop fuel c text args buf = Ok (p, off, v, rest) -> v = 0%nat ->
  exists l i, (args = 0%nat \/ l <> []) /\ valid_frames c args l /\ (i < length (sites c))%nat /\ in_init c (ret_of c i) = true /\
    p = native_frames c text l ++ le 8 (text + ret_of c i) /\ off = off_of c i /\ is_bytes rest /\ len rest mod 8 = 0 /\
    buf = portable_frames c l ++ portable_site c i ++ rest.
Proof.
  intros W. induction fuel as [|fuel IH]; intros args buf p off v rest Bb M8; [destruct buf; discriminate|].
  cbn [import_loop]. destruct buf as [|b0 bt]; [discriminate|].
  set (buf := b0 :: bt) in *.
  assert (L8: (8 <= length buf)%nat).
  { assert (0 < len buf) by (unfold buf; rewrite len_cons; pose proof (len_nonneg bt); lia).
    assert (8 <= len buf) by (rewrite Z.mod_divide in M8 by lia; destruct M8; lia). unfold len in *. lia. }
  assert (L8': length (firstn 8 buf) = 8%nat) by (rewrite firstn_length; lia).
  pose proof (firstn_skipn 8 buf) as Efs.
  set (w := firstn 8 buf) in *. set (R := skipn 8 buf) in *. clearbody w R. clearbody buf. subst buf. clear L8.
  apply is_bytes_app in Bb as [Bw BR].
  assert (MR: len R mod 8 = 0). { rewrite len_app in M8. unfold len in M8 at 1. rewrite L8' in M8. change (Z.of_nat 8) with (1 * 8) in M8. rewrite Z.add_comm, Z.mod_add in M8 by lia. exact M8. }
  unfold get_le at 1. rewrite slice_ok by (rewrite app_length; lia). cbn [bind skipn]. rewrite firstn_app_exact by auto.
  assert (Hw: exists a b, 0 <= a < 2 ^ 32 /\ 0 <= b < 2 ^ 32 /\ w = le 4 a ++ le 4 b).
  { exists (unle (firstn 4 w)), (unle (skipn 4 w)).
    assert (Ba: is_bytes (firstn 4 w)) by now apply Forall_firstn. assert (Bk: is_bytes (skipn 4 w)) by now apply Forall_skipn.
    assert (La: length (firstn 4 w) = 4%nat) by (rewrite firstn_length; lia). assert (Lb: length (skipn 4 w) = 4%nat) by (rewrite skipn_length; lia).
    pose proof (unle_bound _ Ba) as Ua. pose proof (unle_bound _ Bk) as Ub. rewrite La in Ua. rewrite Lb in Ub.
    split; [exact Ua|split; [exact Ub|]].
    rewrite <- La at 1. rewrite le_unle by auto. rewrite <- Lb at 2. rewrite le_unle by auto. now rewrite firstn_skipn. }
  destruct Hw as (a & b & Ha & Hb & ->). rewrite unle_pair, (Z.mod_small b) by lia. rewrite pair_low, pair_high by lia.
  pose proof (wf_nsites c W) as Ns. rewrite (u32_id (len (sites c))) by (unfold len in *; lia).
  destruct (Z.geb_spec a (len (sites c))) as [|Hal]; [discriminate|].
  set (i := Z.to_nat a) in *. assert (Hi: (i < length (sites c))%nat) by (unfold i, len in *; lia).
  assert (Ei: a = Z.of_nat i) by (unfold i; lia).
  rewrite (surjective_pairing (nth i (sites c) (0, 0))). fold (ret_of c i) (off_of c i).
  destruct (Z.eqb_spec (s32 b) (off_of c i)) as [Eo|]; [|discriminate]. cbn [negb].
  assert (Ew: le 4 a ++ le 4 b = portable_site c i). { unfold portable_site. rewrite Ei, <- Eo, le_s32. reflexivity. }
  rewrite Ew, le_u64. 
  destruct (in_init c (ret_of c i)) eqn:Ini.
  - intros H Hv. assert (args = v /\ p = le 8 (text + ret_of c i) /\ off = off_of c i /\ rest = R) as (-> & -> & -> & ->) by (repeat split; congruence).
    subst v. exists [], i. repeat split; auto. constructor.
  - destruct (Z.land (off_of c i) 7 =? 0) eqn:M; cbn [negb]; [|discriminate]. rewrite land7 in M. apply Z.eqb_eq in M.
    destruct (Z.ltb_spec (off_of c i - 8) (Z.of_nat args * 8)); [discriminate|].
    destruct (Z.gtb_spec (off_of c i - 8) (len R)); [discriminate|].
    rewrite find_site_of by auto. rewrite <- Ei, !Z.eqb_refl. cbn [negb orb].
    pose proof (in_func_exists c _ W Ini) as F. set (f := func_index c (ret_of c i)) in *.
    destruct (nth_error (ftypes c) f) as [t|] eqn:Et; [|discriminate].
    destruct (nth_error (types c) t) as [sig|] eqn:Es; [|discriminate].
    set (n := Z.to_nat (off_of c i - 8)) in *.
    destruct (import_loop fuel c text (params sig) (skipn n R)) as [[[[p' off'] v'] rest']| |] eqn:Eq; cbn [bind]; try discriminate.
    intros H1 Hv. 
    assert (v' = v /\ off' = off /\ rest' = rest /\ p = le 8 (text + ret_of c i) ++ firstn n R ++ p') as (-> & -> & -> & ->) by (repeat split; congruence).
    assert (Ln: length (firstn n R) = n) by (rewrite firstn_length; unfold n, len in *; lia).
    assert (Lvn: Z.of_nat n = off_of c i - 8) by (unfold n; lia).
    apply IH in Eq as (l & k & _ & V & Hk & Ik & Ep & Eoff & Br & Mr & Eb); auto.
    2:{ now apply Forall_skipn. }
    2:{ unfold len. rewrite skipn_length. unfold len in MR. rewrite Nat2Z.inj_sub by (unfold n, len in *; lia).
        rewrite Zminus_mod, MR, Lvn. rewrite (Zminus_mod (off_of c i)), M. reflexivity. }
    exists (Frame i (firstn n R) :: l), k. repeat split; auto; try (right; discriminate).
    + econstructor; cbn [site vars]; eauto.
      * exists t. split; eauto.
      * unfold len. rewrite Ln. lia.
      * now apply Forall_firstn.
      * unfold len. rewrite Ln. lia.
    + rewrite Ep. cbn [native_frames flat_map site vars]. now rewrite <- !app_assoc.
    + cbn [portable_frames flat_map site vars]. fold (portable_frames c l). rewrite <- !app_assoc. f_equal.
      rewrite <- (firstn_skipn n R) at 1. now rewrite Eb.
Qed.

Lemma import_sound c text buf r : wf_code c -> is_bytes buf -> importStack c text buf = Ok r ->
  exists s, valid c s /\ r = native c text s /\ len buf = len r.
Proof.
  intros W B. unfold importStack.
  destruct (Z.eqb_spec (len buf) 0); [discriminate|]. cbn [orb].
  destruct (Z.land (len buf) 7 =? 0) eqn:M; [|discriminate]. cbn [negb]. rewrite land7 in M. apply Z.eqb_eq in M.
  destruct (import_loop (length buf) c text 0 buf) as [[[[p off] v] rest]| |] eqn:E; cbn [bind]; try discriminate.
  destruct (Nat.ltb_spec 0 v) as [|Hv]; [discriminate|].
  apply import_loop_sound in E as (l & i & _ & V & Hi & I & -> & -> & Br & Mr & Eb); auto; [|lia].
  assert (Lb: len buf = len (native_frames c text l ++ le 8 (text + ret_of c i)) + len rest).
  { rewrite Eb, !len_app. unfold len. rewrite length_native_frames. unfold portable_site. rewrite app_length, !length_le. lia. }
  destruct (Z.eqb_spec (off_of c i) 8) as [E8|N8].
  - unfold get_le. unfold slice. destruct (Nat.leb_spec (0 + 4) (length rest)) as [L4|]; [|discriminate]. cbn [bind].
    set (fi := unle (firstn 4 (skipn 0 rest))).
    assert (Bf: 0 <= fi < 2 ^ 32).
    { unfold fi. cbn [skipn]. pose proof (unle_bound _ (Forall_firstn _ 4 _ Br)) as U. rewrite firstn_length_le in U by lia. exact U. }
    assert (L8: length (skipn 8 rest) = (length rest - 8)%nat) by now rewrite skipn_length.
    assert (R8: (8 <= length rest)%nat). { rewrite Z.mod_divide in Mr by lia. destruct Mr as [k Hk]. unfold len in *. lia. }
    assert (Bot: forall f, (f < length (funcs c))%nat -> ret_of c i < nth f (funcs c) 0) by (apply in_init_spec; auto).
    unfold maxUint32. destruct (Z.eqb_spec fi (2 ^ 32 - 1)) as [Em|Em]; cbn [negb bind].
    + intros H. destruct (skipn 8 rest) as [|? ?] eqn:Es; [|discriminate].
      exists (CallStack l i (BEntry None)). split; [|split].
      * repeat split; auto.
      * unfold native. cbn [frames bottom under native_under]. rewrite app_assoc. congruence.
      * assert (Er: r = (native_frames c text l ++ le 8 (text + ret_of c i)) ++ le 8 0) by congruence.
        rewrite Er, len_app, Lb. cbn [length] in L8. change (len (le 8 0)) with 8. unfold len in *. lia.
    + pose proof (wf_nfuncs c W) as Nf. rewrite u32_id by (unfold len in *; lia).
      destruct (Z.geb_spec fi (len (funcs c))); [discriminate|].
      destruct (nth_error (ftypes c) (Z.to_nat fi)) as [t|] eqn:Et; [|discriminate].
      destruct (nth_error (types c) t) as [sig|] eqn:Es; [|discriminate].
      destruct (entry_type sig) eqn:Ee; [|discriminate]. cbn [bind].
      intros H1. destruct (skipn 8 rest) as [|? ?] eqn:Esk; [|discriminate].
      exists (CallStack l i (BEntry (Some (Z.to_nat fi)))). split; [|split].
      * repeat split; auto; cbn [under bottom valid_under]; unfold len in *; try lia. exists sig. split; auto. exists t. auto.
      * unfold native. cbn [frames bottom under native_under]. rewrite app_assoc. congruence.
      * assert (Er: r = (native_frames c text l ++ le 8 (text + ret_of c i)) ++ le 8 (nth (Z.to_nat fi) (funcs c) 0)) by congruence.
        rewrite Er, len_app, Lb. cbn [length] in L8. change (len (le 8 (nth (Z.to_nat fi) (funcs c) 0))) with 8. unfold len in *. lia.
  - destruct (Z.eqb_spec (off_of c i) 0) as [E0|]; [|discriminate]. cbn [bind].
    destruct rest; [|discriminate]. intros H. exists (CallStack l i BStarted). split; [|split].
    + repeat split; auto. cbn [bottom]. now apply in_init_spec.
    + unfold native. cbn [frames bottom under native_under]. rewrite app_nil_r in *. congruence.
    + assert (Er: r = (native_frames c text l ++ le 8 (text + ret_of c i)) ++ []) by congruence.
      rewrite Er, Lb, (len_app (_ ++ _)). reflexivity.
Qed.

(* ---- crashes ---- *)

Lemma import_loop_until c text : wf_code c -> forall fuel args buf, is_bytes buf -> len buf mod 8 = 0 ->
  match import_loop fuel c text args buf with
  | Ok (p, off, v, rest) => exists l i, frames_until c args l v /\ (i < length (sites c))%nat /\ in_init c (ret_of c i) = true /\
      off = off_of c i /\ is_bytes rest /\ len rest mod 8 = 0 /\ buf = portable_frames c l ++ portable_site c i ++ rest
  | Panic => exists l v i rest, frames_until c args l v /\ (i < length (sites c))%nat /\ in_init c (ret_of c i) = false /\
      buf = portable_frames c l ++ portable_site c i ++ rest /\ off_of c i mod 8 = 0 /\ Z.of_nat v * 8 <= off_of c i - 8 /\ len rest < off_of c i - 8
  | Err => True
  end.
Proof.
  intros W. induction fuel as [|fuel IH]; intros args buf Bb M8; [destruct buf; exact I|].
  cbn [import_loop]. destruct buf as [|b0 bt]; [exact I|].
  set (buf := b0 :: bt) in *.
  assert (L8: (8 <= length buf)%nat).
  { assert (0 < len buf) by (unfold buf; rewrite len_cons; pose proof (len_nonneg bt); lia).
    assert (8 <= len buf) by (rewrite Z.mod_divide in M8 by lia; destruct M8; lia). unfold len in *. lia. }
  assert (L8': length (firstn 8 buf) = 8%nat) by (rewrite firstn_length; lia).
  pose proof (firstn_skipn 8 buf) as Efs.
  set (w := firstn 8 buf) in *. set (R := skipn 8 buf) in *. clearbody w R. clearbody buf. subst buf. clear L8.
  apply is_bytes_app in Bb as [Bw BR].
  assert (MR: len R mod 8 = 0). { rewrite len_app in M8. unfold len in M8 at 1. rewrite L8' in M8. change (Z.of_nat 8) with (1 * 8) in M8. rewrite Z.add_comm, Z.mod_add in M8 by lia. exact M8. }
  unfold get_le at 1. rewrite slice_ok by (rewrite app_length; lia). cbn [bind skipn]. rewrite firstn_app_exact by auto.
  assert (Hw: exists a b, 0 <= a < 2 ^ 32 /\ 0 <= b < 2 ^ 32 /\ w = le 4 a ++ le 4 b).
  { exists (unle (firstn 4 w)), (unle (skipn 4 w)).
    assert (Ba: is_bytes (firstn 4 w)) by now apply Forall_firstn. assert (Bk: is_bytes (skipn 4 w)) by now apply Forall_skipn.
    assert (La: length (firstn 4 w) = 4%nat) by (rewrite firstn_length; lia). assert (Lb: length (skipn 4 w) = 4%nat) by (rewrite skipn_length; lia).
    pose proof (unle_bound _ Ba) as Ua. pose proof (unle_bound _ Bk) as Ub. rewrite La in Ua. rewrite Lb in Ub.
    split; [exact Ua|split; [exact Ub|]].
    rewrite <- La at 1. rewrite le_unle by auto. rewrite <- Lb at 2. rewrite le_unle by auto. now rewrite firstn_skipn. }
  destruct Hw as (a & b & Ha & Hb & ->). rewrite unle_pair, (Z.mod_small b) by lia. rewrite pair_low, pair_high by lia.
  pose proof (wf_nsites c W) as Ns. rewrite (u32_id (len (sites c))) by (unfold len in *; lia).
  destruct (Z.geb_spec a (len (sites c))) as [|Hal]; [exact I|].
  set (i := Z.to_nat a) in *. assert (Hi: (i < length (sites c))%nat) by (unfold i, len in *; lia).
  assert (Ei: a = Z.of_nat i) by (unfold i; lia).
  rewrite (surjective_pairing (nth i (sites c) (0, 0))). fold (ret_of c i) (off_of c i).
  destruct (Z.eqb_spec (s32 b) (off_of c i)) as [Eo|]; [|exact I]. cbn [negb].
  assert (Ew: le 4 a ++ le 4 b = portable_site c i). { unfold portable_site. rewrite Ei, <- Eo, le_s32. reflexivity. }
  rewrite Ew.
  destruct (in_init c (ret_of c i)) eqn:Ini.
  - exists [], i. repeat split; auto. constructor.
  - destruct (Z.land (off_of c i) 7 =? 0) eqn:M; cbn [negb]; [|exact I]. rewrite land7 in M. apply Z.eqb_eq in M.
    destruct (Z.ltb_spec (off_of c i - 8) (Z.of_nat args * 8)); [exact I|].
    destruct (Z.gtb_spec (off_of c i - 8) (len R)).
    { exists [], args, i, R. repeat split; auto; try lia. constructor. }
    rewrite find_site_of by auto. rewrite <- Ei, !Z.eqb_refl. cbn [negb orb].
    pose proof (in_func_exists c _ W Ini) as F. set (f := func_index c (ret_of c i)) in *.
    destruct (nth_error (ftypes c) f) as [t|] eqn:Et.
    2:{ exfalso. apply nth_error_None in Et. destruct F as [F _]. rewrite (wf_ftypes c W) in Et. lia. }
    destruct (nth_error (types c) t) as [sig|] eqn:Es.
    2:{ exfalso. apply nth_error_None in Es. pose proof (wf_types c W) as Wt. rewrite Forall_forall in Wt. apply nth_error_In, Wt in Et. lia. }
    set (n := Z.to_nat (off_of c i - 8)) in *.
    assert (Ln: length (firstn n R) = n) by (rewrite firstn_length; unfold n, len in *; lia).
    assert (Lvn: Z.of_nat n = off_of c i - 8) by (unfold n; lia).
    assert (Cons: forall l v, frames_until c (params sig) l v -> frames_until c args (Frame i (firstn n R) :: l) v).
    { intros l v U. econstructor; cbn [site vars]; eauto.
      - exists t. split; eauto.
      - unfold len. rewrite Ln. lia.
      - unfold len. rewrite Ln. lia. }
    assert (Buf: forall l k rest, skipn n R = portable_frames c l ++ portable_site c k ++ rest ->
      portable_site c i ++ R = portable_frames c (Frame i (firstn n R) :: l) ++ portable_site c k ++ rest).
    { intros l k rest Eb. cbn [portable_frames flat_map site vars]. fold (portable_frames c l). rewrite <- !app_assoc. f_equal.
      rewrite <- (firstn_skipn n R) at 1. now rewrite Eb. }
    specialize (IH (params sig) (skipn n R)).
    destruct (import_loop fuel c text (params sig) (skipn n R)) as [[[[p' off'] v'] rest']| |] eqn:Eq; cbn [bind]; auto.
    + destruct IH as (l & k & U & Hk & Ik & Eoff & Br & Mr & Eb).
      { now apply Forall_skipn. }
      { unfold len. rewrite skipn_length. unfold len in MR. rewrite Nat2Z.inj_sub by (unfold n, len in *; lia).
        rewrite Zminus_mod, MR, Lvn. rewrite (Zminus_mod (off_of c i)), M. reflexivity. }
      exists (Frame i (firstn n R) :: l), k. repeat split; auto.
    + destruct IH as (l & v & k & rest & U & Hk & Ik & Eb & Q).
      { now apply Forall_skipn. }
      { unfold len. rewrite skipn_length. unfold len in MR. rewrite Nat2Z.inj_sub by (unfold n, len in *; lia).
        rewrite Zminus_mod, MR, Lvn. rewrite (Zminus_mod (off_of c i)), M. reflexivity. }
      exists (Frame i (firstn n R) :: l), v, k, rest. repeat split; auto; apply Q.
Qed.

Lemma import_crash c text buf : wf_code c -> is_bytes buf -> importStack c text buf = Panic -> truncated c buf.
Proof.
  intros W B. unfold importStack.
  destruct (Z.eqb_spec (len buf) 0); [discriminate|]. cbn [orb].
  destruct (Z.land (len buf) 7 =? 0) eqn:M; [|discriminate]. cbn [negb]. rewrite land7 in M. apply Z.eqb_eq in M.
  pose proof (import_loop_until c text W (length buf) 0%nat buf B M) as X.
  destruct (import_loop (length buf) c text 0 buf) as [[[[p off] v] rest]| |]; cbn [bind]; try discriminate.
  - destruct X as (l & i & U & Hi & Ini & -> & Br & Mr & Eb).
    destruct (Nat.ltb_spec 0 v) as [|Hv]; [discriminate|].
    destruct (Z.eqb_spec (off_of c i) 8) as [E8|N8].
    + unfold get_le. unfold slice. destruct (Nat.leb_spec (0 + 4) (length rest)) as [L4|L4]; cbn [bind].
      * set (fi := unle (firstn 4 (skipn 0 rest))). unfold maxUint32.
        assert (Bf: 0 <= fi < 2 ^ 32).
        { unfold fi. cbn [skipn]. pose proof (unle_bound _ (Forall_firstn _ 4 _ Br)) as Ub. rewrite firstn_length_le in Ub by lia. exact Ub. }
        destruct (Z.eqb_spec fi (2 ^ 32 - 1)) as [Em|Em]; cbn [negb bind].
        { destruct (skipn 8 rest); discriminate. }
        pose proof (wf_nfuncs c W) as Nf. rewrite u32_id by (unfold len in *; lia).
        destruct (Z.geb_spec fi (len (funcs c))); [discriminate|].
        destruct (nth_error (ftypes c) (Z.to_nat fi)) as [t|] eqn:Et.
        2:{ exfalso. apply nth_error_None in Et. rewrite (wf_ftypes c W) in Et. unfold len in *. lia. }
        destruct (nth_error (types c) t) as [sig|] eqn:Es.
        2:{ exfalso. apply nth_error_None in Es. pose proof (wf_types c W) as Wt. rewrite Forall_forall in Wt. apply nth_error_In, Wt in Et. lia. }
        destruct (entry_type sig); cbn [bind]; [|discriminate]. destruct (skipn 8 rest); discriminate.
      * intros _. exists l, v, i, rest. rewrite Ini. replace v with 0%nat in * by lia. repeat split; auto.
        rewrite Z.mod_divide in Mr by lia. destruct Mr as [k Hk]. unfold len in *. destruct rest; auto. exfalso. cbn [length] in *. lia.
    + destruct (off_of c i =? 0); [|discriminate]. cbn [bind]. destruct rest; discriminate.
  - destruct X as (l & v & i & rest & U & Hi & Ini & Eb & Q). intros _. exists l, v, i, rest. rewrite Ini. repeat split; auto; apply Q.
Qed.

Lemma init_stack_rejected c text start entry : (0 < length (sites c))%nat -> in_init c (ret_of c 0) = true ->
  (match start with Some i => 0 <= i < 2 ^ 64 | None => True end) -> (match entry with Some i => 0 <= i < 2 ^ 64 | None => True end) ->
  len (sites c) < 2 ^ 32 ->
  importStack c text (putInitStack start entry) = Err.
Proof.
  intros L0 I H1 H2 Ln. unfold putInitStack.
  set (a := match start with Some i => i | None => maxUint64 end). set (b := match entry with Some i => i | None => maxUint64 end).
  unfold importStack.
  assert (E24: len (le 8 (16 * 2 ^ 32) ++ le 8 a ++ le 8 b) = 24) by reflexivity. rewrite E24. cbn [Z.eqb Pos.eqb Z.land Pos.land negb orb].
  change (length (le 8 (16 * 2 ^ 32) ++ le 8 a ++ le 8 b)) with 24%nat.
  cbn [import_loop]. destruct (le 8 (16 * 2 ^ 32) ++ le 8 a ++ le 8 b) as [|x t] eqn:E; [discriminate|]. rewrite <- E. clear E x t E24.
  rewrite get_le_app. cbn [bind]. change (u32 ((16 * 2 ^ 32) mod 256 ^ Z.of_nat 8)) with 0.
  change (s32 (Z.shiftr ((16 * 2 ^ 32) mod 256 ^ Z.of_nat 8) 32)) with 16.
  rewrite u32_id by (unfold len in *; lia). destruct (Z.geb_spec 0 (len (sites c))); [reflexivity|].
  change (Z.to_nat 0) with 0%nat. rewrite (surjective_pairing (nth 0 (sites c) (0, 0))). fold (ret_of c 0) (off_of c 0).
  destruct (Z.eqb_spec 16 (off_of c 0)) as [E16|]; cbn [negb bind]; [|reflexivity].
  rewrite I. cbn [bind Nat.ltb Nat.leb]. rewrite <- E16. reflexivity.
Qed.
