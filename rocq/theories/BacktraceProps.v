(* BacktraceProps.v: the backtrace that the client shows is the program's call stack (C140). *)
From Verif Require Import Backtrace StackSpec BaseLemmas ListLemmas StackProofs.
From Verif Require StackProps.

(* ---- Specification ---- *)
(* The 64-bit little-endian numbers of a frame's variables, from the lowest address upwards. *)
Definition slot (b : bytes) (k : nat) : Z := unle (firstn 8 (skipn (8 * k) b)).
Definition words (b : bytes) : list Z := map (slot b) (seq 0 (length b / 8)).
(* What is shown of frames, innermost first: each frame's function and the place in the module of the call it's at; its parameters, the first at
   the highest address of those at the beginning of its caller's variables; and its other variables, the first at the highest address. *)
Definition caller_vars (l : list frame) : bytes := match l with [] => [] | fr :: _ => vars fr end.
Inductive shown (c : code) (source : Z -> Z) : list frame -> list tframe -> Prop :=
| SNone : shown c source [] []
| SFrame fr l sig t ts :
    in_func c (ret_of c (site fr)) (t_func t) -> has_type c (t_func t) sig ->
    t_off t = source (ret_of c (site fr)) ->
    t_locals t = rev (firstn (params sig) (words (caller_vars l))) ++ rev (words (vars fr)) ->
    shown c source l ts -> shown c source (fr :: l) (t :: ts).

(* ---- Lemmas ---- *)
Lemma get_le_slot b k : (8 * k + 8 <= length b)%nat -> get_le (8 * k) 8 b = Ok (slot b k).
Proof. intros H. unfold get_le. rewrite slice_ok by exact H. reflexivity. Qed.
Lemma read_slots_ok b l : (forall k, In k l -> (8 * k + 8 <= length b)%nat) -> read_slots b l = Ok (map (slot b) l).
Proof.
  induction l as [|k l IH]; intros H; cbn [read_slots map]; [reflexivity|]. rewrite get_le_slot by (apply H; now left). cbn [bind].
  rewrite IH by (intros j J; apply H; now right). reflexivity.
Qed.
Lemma slot_skip a b n j : length a = (8 * n)%nat -> slot (a ++ b) (n + j) = slot b j.
Proof. intros H. unfold slot. rewrite skipn_app, (skipn_all2 a) by lia. cbn [app]. do 3 f_equal. lia. Qed.
Lemma slot_in a b j : (8 * j + 8 <= length a)%nat -> slot (a ++ b) j = slot a j.
Proof. intros H. unfold slot. rewrite skipn_app_le by lia. rewrite firstn_app_le by (rewrite skipn_length; lia). reflexivity. Qed.
Lemma rev_seq {A} (g : nat -> A) n : map (fun i => g (n - 1 - i)%nat) (seq 0 n) = rev (map g (seq 0 n)).
Proof.
  induction n as [|n IH]; [reflexivity|]. transitivity (g n :: rev (map g (seq 0 n))).
  - cbn [seq map]. f_equal; [f_equal; lia|]. rewrite <- IH, <- seq_shift, map_map. apply map_ext_in. intros a I. apply in_seq in I. f_equal. lia.
  - rewrite seq_S, map_app, rev_app_distr. reflexivity.
Qed.
Lemma firstn_words n b : (8 * n <= length b)%nat -> firstn n (words b) = map (slot b) (seq 0 n).
Proof.
  intros H. unfold words. assert (L : (n <= length b / 8)%nat) by (apply Nat.div_le_lower_bound; lia).
  replace (length b / 8)%nat with (n + (length b / 8 - n))%nat by lia. rewrite seq_app, map_app. apply firstn_app_exact. now rewrite map_length, seq_length.
Qed.
Lemma portable_site_length c i : length (portable_site c i) = 8%nat.
Proof. unfold portable_site. now rewrite app_length, !length_le. Qed.
Lemma head_room c args l : valid_frames c args l -> (8 * args <= length (caller_vars l))%nat.
Proof. intros V. destruct V; cbn [caller_vars length]; [lia|]. unfold len in *. lia. Qed.

Lemma trace_loop_frames c source args l i rest : wf_code c -> valid_frames c args l ->
  (i < length (sites c))%nat -> in_init c (ret_of c i) = true ->
  forall fuel, (S (length l) <= fuel)%nat ->
  exists ts, trace_loop fuel c source (portable_frames c l ++ portable_site c i ++ rest) = Ok ts /\ shown c source l ts.
Proof.
  intros W V Hi I.
  assert (Site: forall i R, (i < length (sites c))%nat -> get_le 0 8 (portable_site c i ++ R) = Ok (Z.of_nat i + 2 ^ 32 * off_of c i)).
  { intros j R Hj. unfold portable_site. rewrite get_pair, unle_pair by (pose proof (wf_nsites c W); unfold len in *; lia).
    f_equal. f_equal. f_equal. apply Z.mod_small. pose proof (site_bounds c j W Hj). lia. }
  assert (N: forall j, (j < length (sites c))%nat ->
     u32 (Z.of_nat j + 2 ^ 32 * off_of c j) = Z.of_nat j /\ s32 (Z.shiftr (Z.of_nat j + 2 ^ 32 * off_of c j) 32) = off_of c j /\
     (Z.of_nat j >=? u32 (len (sites c))) = false /\ Z.to_nat (Z.of_nat j) = j).
  { intros j Hj. pose proof (wf_nsites c W). pose proof (site_bounds c j W Hj).
    rewrite pair_low, pair_high by (unfold len in *; lia). rewrite s32_id by lia. rewrite u32_id by (unfold len in *; lia).
    rewrite Nat2Z.id. repeat split. unfold len. destruct (Z.geb_spec (Z.of_nat j) (Z.of_nat (length (sites c)))); auto; lia. }
  induction V as [|args fr l f sig Hs F T M L B A V IH]; intros fuel Hf.
  - destruct fuel as [|fuel]; [lia|]. exists []. split; [|constructor]. cbn [portable_frames flat_map app trace_loop].
    destruct (portable_site c i ++ rest) as [|x t] eqn:E; [discriminate|]. rewrite <- E. clear E x t.
    rewrite Site by auto. cbn [bind]. destruct (N i Hi) as (-> & -> & -> & ->).
    rewrite (surjective_pairing (nth i (sites c) (0, 0))). fold (ret_of c i) (off_of c i).
    rewrite Z.eqb_refl. cbn [negb]. rewrite I. reflexivity.
  - destruct fuel as [|fuel]; [lia|]. cbn [portable_frames flat_map]. rewrite <- !app_assoc.
    destruct (IH fuel) as (ts & E & S); [cbn in Hf; lia|]. fold (portable_frames c l).
    set (R := portable_frames c l ++ portable_site c i ++ rest) in *.
    assert (O : 8 <= off_of c (site fr)) by (pose proof (len_nonneg (vars fr)); lia).
    destruct T as (ti & T1 & T2).
    eexists. split.
    + cbn [trace_loop].
      destruct (portable_site c (site fr) ++ vars fr ++ R) as [|x t] eqn:X; [discriminate|]. rewrite <- X. clear X x t.
      rewrite Site by auto. cbn [bind]. destruct (N (site fr) Hs) as (-> & -> & -> & ->).
      rewrite (surjective_pairing (nth (site fr) (sites c) (0, 0))). fold (ret_of c (site fr)) (off_of c (site fr)).
      rewrite Z.eqb_refl. cbn [negb]. rewrite (in_func_not_init c _ f W F), (mod8_off _ M). cbn [orb].
      destruct (Z.eqb_spec (off_of c (site fr)) 0); [lia|]. rewrite find_site_of by auto. rewrite !Z.eqb_refl. cbn [negb orb].
      destruct (Z.ltb_spec (off_of c (site fr)) 0); [lia|]. rewrite (func_index_in c _ f W F). rewrite T1, T2.
      set (m := (Z.to_nat (off_of c (site fr) / 8) - 1)%nat).
      assert (Hm : length (vars fr) = (8 * m)%nat).
      { unfold m, len in *. apply Z.mod_divide in M as [q Q]; [|lia]. rewrite Q in *. rewrite Z.div_mul by lia. lia. }
      assert (RL : (8 * params sig = 0)%nat \/ (8 + 8 * params sig <= length R)%nat).
      { pose proof (head_room _ _ _ V) as HR. destruct l as [|fr' l']; [left; cbn in HR; lia|]. right. unfold R. cbn [portable_frames flat_map caller_vars] in *.
        rewrite !app_length, portable_site_length. lia. }
      rewrite read_slots_ok by (intros k K; apply in_map_iff in K as (j & <- & J); apply in_seq in J; rewrite !app_length, portable_site_length; lia).
      cbn [bind].
      rewrite read_slots_ok by (intros k K; apply in_map_iff in K as (j & <- & J); apply in_seq in J; rewrite !app_length, portable_site_length; lia).
      cbn [bind].
      destruct (Z.gtb_spec (off_of c (site fr)) (len (portable_site c (site fr) ++ vars fr ++ R))).
      { exfalso. rewrite !len_app in *. pose proof (len_nonneg R). unfold len in *. rewrite portable_site_length in *. lia. }
      rewrite app_assoc. rewrite (skipn_app_exact (portable_site c (site fr) ++ vars fr)) by (rewrite app_length, portable_site_length; unfold len in *; lia).
      rewrite E. cbn [bind]. reflexivity.
    + apply SFrame with (sig := sig); cbn [t_func t_off t_locals]; auto; [exists ti; split; auto|].
      set (m := (Z.to_nat (off_of c (site fr) / 8) - 1)%nat).
      assert (Hm : length (vars fr) = (8 * m)%nat).
      { unfold m, len in *. apply Z.mod_divide in M as [q Q]; [|lia]. rewrite Q in *. rewrite Z.div_mul by lia. lia. }
      pose proof (head_room _ _ _ V) as HR.
      f_equal.
      * rewrite firstn_words by exact HR. rewrite map_map. rewrite <- rev_seq. apply map_ext_in. intros j J. apply in_seq in J.
        rewrite <- app_assoc. destruct l as [|fr' l']; [cbn in HR; lia|]. cbn [caller_vars] in *.
        unfold R. cbn [portable_frames flat_map].
        replace (params sig + m - j + 1)%nat with (1 + (m + (1 + (params sig - 1 - j))))%nat by lia.
        rewrite (slot_skip _ _ 1) by (now rewrite portable_site_length). rewrite (slot_skip _ _ m) by exact Hm. rewrite <- !app_assoc.
        rewrite (slot_skip _ _ 1) by (now rewrite portable_site_length). apply slot_in. lia.
      * unfold words. rewrite Hm, Nat.mul_comm, Nat.div_mul by lia. rewrite map_map, <- rev_seq. apply map_ext_in. intros j J. apply in_seq in J.
        rewrite <- app_assoc. replace (m - j)%nat with (1 + (m - 1 - j))%nat by lia.
        rewrite (slot_skip _ _ 1) by (now rewrite portable_site_length). apply slot_in. lia.
Qed.

(* ---- Claims ---- *)
(* The stack that the server sends for any suspended program is shown as it is. *)
Theorem backtrace_shows : forall c source s, wf_code c -> valid c s -> exists ts, traceStack c source (portable c s) = Ok ts /\ shown c source (frames s) ts.
Proof.
  intros c source s W (V & Hb & I & U). apply in_init_spec in I; auto. unfold traceStack, portable.
  set (tail := portable_under (under s)).
  assert (Lt: length tail = 8%nat \/ length tail = 0%nat) by (unfold tail, portable_under; destruct (under s) as [[f|]|]; rewrite ?length_le; auto).
  assert (LM: len (portable_frames c (frames s) ++ portable_site c (bottom s) ++ tail) mod 8 = 0).
  { rewrite !len_app. unfold len at 2 3. rewrite portable_site_length. pose proof (vars_mod8 c _ _ V) as M. rewrite Z.add_mod, M by lia. destruct Lt as [->| ->]; reflexivity. }
  rewrite (mod8_off _ LM).
  destruct (Z.eqb_spec (len (portable_frames c (frames s) ++ portable_site c (bottom s) ++ tail)) 0) as [E|_].
  { exfalso. rewrite !len_app in E. pose proof (len_nonneg (portable_frames c (frames s))). pose proof (len_nonneg tail). change (len (portable_site c (bottom s))) with 8 in E. lia. }
  cbn [orb]. apply (trace_loop_frames c source 0); auto.
  rewrite !app_length, portable_site_length. pose proof (frames_length_le c (frames s)). lia.
Qed.
(* From the program's memory to what is shown: wherever the program's text was. *)
Theorem backtrace_end_to_end : forall c text source s, wf_code c -> valid c s ->
  exists p ts, exportStack c text (native c text s) = Ok p /\ traceStack c source p = Ok ts /\ shown c source (frames s) ts.
Proof.
  intros c text source s W V. destruct (backtrace_shows c source s W V) as (ts & E & S). exists (portable c s), ts. split; [now apply export_native|auto].
Qed.
(* Only one thing is shown of a stack. *)
Lemma in_func_unique c a f g : wf_code c -> in_func c a f -> in_func c a g -> f = g.
Proof. intros W F G. rewrite <- (func_index_in c a f W F). now apply func_index_in. Qed.
Theorem backtrace_unique : forall c source l ts ts', wf_code c -> shown c source l ts -> shown c source l ts' -> ts = ts'.
Proof.
  intros c source l ts ts' W S. revert ts'. induction S as [|fr l sig t ts F T O L S IH]; intros ts' S'; inversion S' as [|? ? sig' t' ts1 F' T' O' L' S1]; subst; [reflexivity|].
  f_equal; [|now apply IH]. destruct t as [a b d], t' as [a' b' d']. cbn [t_func t_off t_locals] in *.
  assert (X : a = a') by (eapply in_func_unique; eauto). subst a'.
  assert (Y : sig = sig') by (destruct T as (x & T1 & T2), T' as (y & T3 & T4); rewrite T1 in T3; injection T3 as <-; rewrite T2 in T4; now injection T4). subst sig'.
  congruence.
Qed.
Print Assumptions backtrace_shows.
Print Assumptions backtrace_end_to_end.
Print Assumptions backtrace_unique.
(* A function with two parameters called by a function with two words of variables. *)
Example backtrace_ex : traceStack StackProps.ex_code (fun a => a + 1) (portable StackProps.ex_code
    (CallStack [Frame 3 (le 8 10 ++ le 8 11 ++ le 8 12); Frame 2 (le 8 20 ++ le 8 21)] 0 (BEntry (Some 0%nat))))
  = Ok [TFrame 1 201 [21; 20; 12; 11; 10]; TFrame 0 101 [21; 20]].
Proof. vm_compute. reflexivity. Qed.
