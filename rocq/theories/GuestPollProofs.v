(* GuestPollProofs.v: proofs about the guest library's poll_oneoff. *)
From Verif Require Import GuestLibSpec GuestLib BaseLemmas GuestLibProofs GuestIoProofs.

Lemma load_in n ea m p l w : ea + Z.of_nat n <= p * 65536 -> load n ea (St m p l w) = (St m p l w, Next (Some (unle (bytes_at m ea n)))).
Proof. intros. unfold load, mem_size. cbn [pages mem]. rewrite (proj2 (Z.ltb_ge _ _)) by lia. reflexivity. Qed.
Lemma store_in n ea v m p l w : ea + Z.of_nat n <= p * 65536 -> store n ea v (St m p l w) = (St (put_bytes m ea (le n v)) p l w, Next None).
Proof. intros. rewrite store_St, (proj2 (Z.ltb_ge _ _)) by lia. reflexivity. Qed.

Definition immediate (v : sub) : list event :=
  if s_fd v =? 4 then [] else if 3 <=? s_fd v then [Bad (s_user v)]
  else if ((s_fd v =? 1) || (s_fd v =? 2)) && (s_type v =? 2) then [Ready (s_user v) 2 1] else [].
Definition isread (v : sub) : bool := (s_fd v =? 4) && (s_type v =? 1).
Definition iswrite (v : sub) : bool := (s_fd v =? 4) && (s_type v =? 2).
Fixpoint last_of (f : sub -> bool) (vs : list sub) (d : Z) : Z :=
  match vs with [] => d | v :: t => last_of f t (if f v then s_user v else d) end.

Lemma put_events_app m a l l' : put_events m a (l ++ l') = put_events (put_events m a l) (a + 32 * len l) l'.
Proof.
  revert m a; induction l; intros; cbn [app put_events].
  - unfold len. cbn [length]. f_equal. lia.
  - rewrite IHl. f_equal. unfold len. cbn [length]. lia.
Qed.
Lemma len_le n v : len (le n v) = Z.of_nat n.
Proof. unfold len. f_equal. revert v; induction n; intros; cbn [le length]; auto. Qed.
Lemma put_event_other m a e x : x < a \/ a + 32 <= x -> put_event m a e x = m x.
Proof.
  intros H. destruct e; cbn [put_event].
  - rewrite !put_bytes_other; [reflexivity| |]; rewrite len_le; lia.
  - rewrite !put_bytes_other; [reflexivity| | | | |]; rewrite len_le; lia.
Qed.
Lemma le_ok n v : Forall (fun b => 0 <= b < 256) (le n v).
Proof. revert v; induction n; intros; cbn [le]; constructor; auto. apply Z.mod_pos_bound. lia. Qed.
Lemma put_event_ok m a e : (forall x, 0 <= m x < 256) -> forall x, 0 <= put_event m a e x < 256.
Proof. intros H. destruct e; cbn [put_event]; repeat (apply put_bytes_ok; [|apply le_ok]); exact H. Qed.
Lemma subs_same m m' a n : (forall x, a <= x < a + 56 * Z.of_nat n -> m' x = m x) -> subs m' a n = subs m a n.
Proof.
  revert a; induction n; intros; cbn [subs]; [reflexivity|].
  f_equal; [f_equal; [unfold u64_at; f_equal; apply bytes_at_same; intros; apply H; lia | apply H; lia | unfold u32_at; f_equal; apply bytes_at_same; intros; apply H; lia]
           | apply IHn; intros; apply H; lia].
Qed.

Definition poll_body : list ins := match lib_poll_oneoff with Func _ _ (_ :: Block [Loop b] :: _) => b | _ => [] end.

Definition pl (sub out n np ty fd r w ru wu res nout : Z) : list Z := [sub; out; n; np; ty; fd; r; w; ru; wu; res; nout].
Lemma poll_iter k m p w sub out n np ty0 fd0 r wr ru wu res nout :
  0 <= sub -> 0 <= out -> n <> 0 -> sub + 56 <= p * 65536 -> out + 32 <= p * 65536 -> m (sub + 8) = 1 \/ m (sub + 8) = 2 ->
  (forall x, 0 <= m x < 256) -> 
  let v := Sub (u64_at m sub) (m (sub + 8)) (u32_at m (sub + 16)) in
  apart sub 56 out 32 ->
  exec (eval k) poll_body (St m p (pl sub out n np ty0 fd0 r wr ru wu res nout) w) =
  (St (put_events m out (immediate v)) p
     (pl (u32 (sub + 56)) (if len (immediate v) =? 0 then out else u32 (out + 32)) (u32 (n - 1)) np (s_type v) (s_fd v)
         (if isread v then 1 else r) (if iswrite v then 4 else wr)
         (if isread v then s_user v else ru) (if iswrite v then s_user v else wu) res (if len (immediate v) =? 0 then nout else u32 (nout + 1))) w, Brk 0).
Proof.
  intros Hs Ho Hn Hb1 Hb2 Hty Hm v Hap. unfold poll_body, lib_poll_oneoff, pl.
  wstep. rewrite (proj2 (Z.eqb_neq n 0) Hn). wstep.
  rewrite load_in by lia. wstep.
  assert (LB : unle (bytes_at m (sub + 8) 1) = m (sub + 8)) by (cbn [bytes_at unle]; lia).
  rewrite LB. set (t := m (sub + 8)) in *.
  rewrite (proj2 (Z.leb_gt 3 t)) by lia. wstep. rewrite (proj2 (Z.eqb_neq t 0)) by lia. wstep.
  rewrite load_in by lia. wstep. change (unle (bytes_at m (sub + 16) 4)) with (u32_at m (sub + 16)).
  pose proof (u32_at_range m (sub + 16) Hm) as RF. set (f := u32_at m (sub + 16)) in *.
  unfold isread, iswrite, immediate. subst v. cbn [s_fd s_type s_user]. set (ud := u64_at m sub) in *.
  assert (LU : unle (bytes_at m (sub + 0) 8) = ud) by (rewrite Z.add_0_r; reflexivity).
  assert (W1 : forall o d, out <= o -> o + len d <= out + 32 -> unle (bytes_at (put_bytes m o d) (sub + 0) 8) = ud).
  { intros o d O1 O2. rewrite Z.add_0_r. unfold ud, u64_at. f_equal. apply bytes_at_same. intros x Hx. apply put_bytes_other. unfold apart in Hap. lia. }
  destruct (Z.eqb_spec f 4) as [F4|F4]; wstep.
  - rewrite F4. destruct (Z.eqb_spec t 1) as [T1|T1]; wstep.
    + rewrite load_in by lia. wstep. rewrite LU. rewrite T1. wstep. cbn [andb orb]. wstep. reflexivity.
    + assert (T2 : t = 2) by lia. rewrite T2. wstep. rewrite load_in by lia. wstep. rewrite LU. cbn [andb orb]. wstep. reflexivity.
  - destruct (Z.leb_spec 3 f) as [F3|F3]; wstep.
    + rewrite load_in by lia. wstep. rewrite store_in by lia. wstep. rewrite store_in by lia. wstep.
      rewrite (proj2 (Z.eqb_neq f 1)), (proj2 (Z.eqb_neq f 2)) by lia. cbn [orb andb]. wstep. rewrite LU.
      cbn [put_events put_event]. rewrite Z.add_0_r. reflexivity.
    + destruct (((f =? 1) || (f =? 2)) && (t =? 2)) eqn:EB; wstep.
      * rewrite load_in by lia. wstep.
        do 5 (rewrite store_in by lia; wstep). rewrite LU. cbn [put_events put_event]. rewrite Z.add_0_r. reflexivity.
      * reflexivity.
Qed.

Lemma immediate_cases v : immediate v = [] \/ exists e, immediate v = [e].
Proof. unfold immediate. destruct (_ =? 4); [auto|]. destruct (_ <=? _); [eauto|]. destruct (_ && _); eauto. Qed.

Lemma if_orb (a b : bool) (x y : Z) : (if b then x else if a then x else y) = (if a || b then x else y).
Proof. destruct a, b; reflexivity. Qed.
Lemma poll_loop np res p : forall n k m w sub out ty0 fd0 r wr ru wu nout,
  (n <= k)%nat -> is_u32 sub -> is_u32 out -> (forall x, 0 <= m x < 256) -> 0 <= p < 65536 -> 0 <= nout -> nout + Z.of_nat n < 2 ^ 32 -> 
  sub + 56 * Z.of_nat n <= p * 65536 -> out + 32 * Z.of_nat n <= p * 65536 -> apart sub (56 * Z.of_nat n) out (32 * Z.of_nat n) ->
  let vs := subs m sub n in
  Forall (fun v => s_type v = 1 \/ s_type v = 2) vs ->
  let evs := concat (map immediate vs) in
  exists sub' n' ty fd,
  eval k (Loop poll_body) (St m p (pl sub out (Z.of_nat n) np ty0 fd0 r wr ru wu res nout) w) =
  (St (put_events m out evs) p
     (pl sub' (out + 32 * len evs) n' np ty fd (if existsb isread vs then 1 else r) (if existsb iswrite vs then 4 else wr)
        (last_of isread vs ru) (last_of iswrite vs wu) res (nout + len evs)) w, Brk 0).
Proof.
  induction n; intros k m w sub out ty0 fd0 r wr ru wu nout Hk Hs Ho Hm Hp Hn0 Hn Hb1 Hb2 Hap vs Ht evs; rewrite eval_Loop.
  - unfold poll_body, lib_poll_oneoff, pl. wstep. cbn [Z.of_nat Z.eqb]. wstep.
    exists sub, 0, ty0, fd0. subst vs evs. cbn [subs map concat put_events existsb last_of]. unfold len. cbn [length].
    replace (out + 32 * Z.of_nat 0) with out by lia. replace (nout + Z.of_nat 0) with nout by lia. reflexivity.
  - subst vs. cbn [subs] in *. set (v := Sub (u64_at m sub) (m (sub + 8)) (u32_at m (sub + 16))) in *.
    inversion Ht as [|? ? T1 T2]; subst. unfold is_u32 in *.
    assert (Hap1 : apart sub 56 out 32) by (unfold apart in *; lia).
    rewrite poll_iter; auto; try lia. fold v. cbv zeta.
    destruct k as [|k]; [lia|].
    rewrite (u32_small (sub + 56)) by (unfold is_u32; lia).
    rewrite (u32_small (Z.of_nat (S n) - 1)) by (unfold is_u32; lia).
    replace (Z.of_nat (S n) - 1) with (Z.of_nat n) by lia.
    rewrite (u32_small (out + 32)) by (unfold is_u32; lia).
    rewrite (u32_small (nout + 1)) by (unfold is_u32; lia).
    subst evs. cbn [map concat existsb last_of]. 
    destruct (immediate_cases v) as [EI | [e EI]]; rewrite EI; cbn [app].
    + change (len (@nil event) =? 0) with true. cbv iota. cbn [put_events].
      destruct (IHn k m w (sub + 56) out (s_type v) (s_fd v) (if isread v then 1 else r) (if iswrite v then 4 else wr)
        (if isread v then s_user v else ru) (if iswrite v then s_user v else wu) nout) as (s' & n' & ty & fd & E); auto; try lia.
      { unfold apart in *. lia. }
      exists s', n', ty, fd. rewrite E, <- !if_orb. reflexivity.
    + change (len [e] =? 0) with false. cbv iota. cbn [put_events].
      assert (SS : subs (put_event m out e) (sub + 56) n = subs m (sub + 56) n).
      { apply subs_same. intros x Hx. apply put_event_other. unfold apart in *. lia. }
      destruct (IHn k (put_event m out e) w (sub + 56) (out + 32) (s_type v) (s_fd v) (if isread v then 1 else r) (if iswrite v then 4 else wr)
        (if isread v then s_user v else ru) (if iswrite v then s_user v else wu) (nout + 1)) as (s' & n' & ty & fd & E); try rewrite SS; auto; try lia.
      { apply put_event_ok, Hm. }
      { unfold apart in *. lia. }
      rewrite SS in E. exists s', n', ty, fd. rewrite E.
      assert (L : len (e :: concat (map immediate (subs m (sub + 56) n))) = 1 + len (concat (map immediate (subs m (sub + 56) n)))) by (unfold len; cbn [length]; lia).
      rewrite L, <- !if_orb. replace (out + 32 * (1 + len (concat (map immediate (subs m (sub + 56) n))))) with (out + 32 + 32 * len (concat (map immediate (subs m (sub + 56) n)))) by lia.
      replace (nout + (1 + len (concat (map immediate (subs m (sub + 56) n))))) with (nout + 1 + len (concat (map immediate (subs m (sub + 56) n)))) by lia.
      reflexivity.
Qed.

Definition polled (vs : list sub) (f : Z) : list event :=
  (if Z.land f 1 =? 0 then [] else [Ready (last_of isread vs 0) 1 65536]) ++
  (if Z.land f 4 =? 0 then [] else [Ready (last_of iswrite vs 0) 2 65536]).

(* Bits are reported only if they are asked for. *)
Lemma land1_bit f : (Z.land f 1 =? 0) = negb (Z.testbit f 0).
Proof.
  replace (Z.land f 1) with (f mod 2 ^ 1) by (rewrite <- Z.land_ones by lia; reflexivity).
  rewrite Z.bit0_odd. rewrite Zmod_odd. destruct (Z.odd f); reflexivity.
Qed.
Lemma land4_bit f : (Z.land f 4 =? 0) = negb (Z.testbit f 2).
Proof.
  destruct (Z.testbit f 2) eqn:E; cbn [negb].
  - apply Z.eqb_neq. intros H. assert (B : Z.testbit (Z.land f 4) 2 = true) by (rewrite Z.land_spec, E; reflexivity).
    rewrite H, Z.bits_0 in B. discriminate.
  - apply Z.eqb_eq. apply Z.bits_inj'. intros n Hn. rewrite Z.bits_0, Z.land_spec.
    change 4 with (2 ^ 2). rewrite Z.pow2_bits_eqb by lia. destruct (Z.eqb_spec 2 n); [subst; rewrite E; reflexivity | apply andb_false_r].
Qed.
Lemma rt_poll_bits answers (a b : bool) : forall s s' f,
  rt_poll answers (if a then 1 else 0) (if b then 4 else 0) s = (s', Next (Some f)) ->
  (Z.land f 1 <> 0 -> a = true) /\ (Z.land f 4 <> 0 -> b = true).
Proof.
  assert (RB : forall ev c i, i < 3 -> 0 <= i -> Z.testbit (reported ev c) i = true -> Z.testbit ev i = true).
  { intros ev c i H1 H0. unfold reported. rewrite Z.land_spec, Z.lor_spec. intros H. apply andb_true_iff in H. destruct H as [_ H].
    apply orb_true_iff in H. destruct H as [H|H]; [exact H|].
    exfalso. assert (i = 0 \/ i = 1 \/ i = 2) as [-> | [-> | ->]] by lia; vm_compute in H; discriminate H. }
  induction answers as [|x rest IH]; intros s s' f; cbn [rt_poll]; [discriminate|].
  destruct x.
  2:{ destruct (_ || _); intros H; inversion H; subst. cbn. split; congruence. }
  set (e0 := reported (if a then 1 else 0) r0). set (e1 := reported (if b then 4 else 0) r1).
  destruct (_ && _); [apply IH|].
  destruct (negb (Z.land e0 _ =? 0)); [intros H; inversion H; subst; cbn; split; congruence|].
  destruct (negb (Z.land e0 _ =? 0)); [discriminate|].
  destruct (negb (Z.land e1 _ =? 0)); [discriminate|].
  intros H. assert (f = Z.lor e0 e1) as -> by congruence. clear H.
  split; intros H.
  - assert (T : Z.testbit (Z.lor e0 e1) 0 = true).
    { destruct (Z.testbit _ 0) eqn:E; [reflexivity|]. exfalso. apply H. apply Z.eqb_eq. rewrite land1_bit, E. reflexivity. }
    rewrite Z.lor_spec in T. apply orb_true_iff in T. destruct T as [T|T]; apply RB in T; try lia.
    + destruct a; [reflexivity | rewrite Z.bits_0 in T; discriminate].
    + destruct b; vm_compute in T; discriminate T.
  - assert (T : Z.testbit (Z.lor e0 e1) 2 = true).
    { destruct (Z.testbit _ 2) eqn:E; [reflexivity|]. exfalso. apply H. apply Z.eqb_eq. rewrite land4_bit, E. reflexivity. }
    rewrite Z.lor_spec in T. apply orb_true_iff in T. destruct T as [T|T]; apply RB in T; try lia.
    + destruct a; vm_compute in T; discriminate T.
    + destruct b; [reflexivity | rewrite Z.bits_0 in T; discriminate].
Qed.

Lemma last_of_in f vs d : existsb f vs = true -> exists v, In v vs /\ f v = true /\ s_user v = last_of f vs d.
Proof.
  revert d; induction vs as [|v t IH]; intros d; cbn [existsb last_of]; [discriminate|]. intros H.
  destruct (existsb f t) eqn:E.
  - destruct (IH (if f v then s_user v else d) eq_refl) as (u & I1 & I2 & I3). exists u. cbn [In]. auto.
  - rewrite orb_false_r in H. rewrite H. exists v. cbn [In]. split; [auto|]. split; [exact H|].
    clear -E. assert (G : forall t, existsb f t = false -> forall d, last_of f t d = d).
    { clear. induction t; intros E d; cbn in *; [reflexivity|]. apply orb_false_iff in E. destruct E as [-> E]. auto. }
    rewrite G; auto.
Qed.

Lemma len_immediate v : 0 <= len (immediate v) <= 1 /\ (s_fd v = 4 -> immediate v = []).
Proof.
  split; [destruct (immediate_cases v) as [-> | [e ->]]; unfold len; cbn; lia|].
  intros H. unfold immediate. rewrite H. reflexivity.
Qed.
Lemma len_events vs (f : Z) : (Z.land f 1 <> 0 -> existsb isread vs = true) -> (Z.land f 4 <> 0 -> existsb iswrite vs = true) ->
  len (concat (map immediate vs) ++ polled vs f) <= len vs.
Proof.
  intros H1 H2. rewrite len_app.
  assert (P : len (polled vs f) <= (if existsb isread vs then 1 else 0) + (if existsb iswrite vs then 1 else 0)).
  { unfold polled. rewrite len_app. destruct (Z.eqb_spec (Z.land f 1) 0) as [|N]; [|rewrite (H1 N)];
    (destruct (Z.eqb_spec (Z.land f 4) 0) as [|M]; [|rewrite (H2 M)]); unfold len; cbn [length];
    repeat (destruct (existsb _ _)); lia. }
  assert (C : forall vs, len (concat (map immediate vs)) + (if existsb isread vs then 1 else 0) + (if existsb iswrite vs then 1 else 0) <= len vs).
  { clear. induction vs as [|v t IH]; [unfold len; cbn; lia|]. cbn [map concat existsb]. rewrite len_app.
    replace (len (v :: t)) with (1 + len t) by (unfold len; cbn [length]; lia).
    destruct (len_immediate v) as [L1 L2]. unfold isread at 1, iswrite at 1.
    destruct (Z.eqb_spec (s_fd v) 4) as [E|E]; cbn [andb orb].
    - rewrite (L2 E). unfold len at 1. cbn [length].
      destruct (Z.eqb_spec (s_type v) 1); destruct (Z.eqb_spec (s_type v) 2); try lia; cbn [orb];
        destruct (existsb isread t), (existsb iswrite t); lia.
    - destruct (existsb isread t), (existsb iswrite t); lia. }
  specialize (C vs). lia.
Qed.

Lemma poll_oneoff_spec k n s sub out np :
  guest_ok s -> is_u32 sub -> is_u32 out -> is_u32 np -> (n <= k)%nat -> Z.of_nat n < 2 ^ 32 ->
  sub + 56 * Z.of_nat n <= mem_size s -> out + 32 * Z.of_nat n <= mem_size s -> np + 4 <= mem_size s ->
  apart sub (56 * Z.of_nat n) out (32 * Z.of_nat n) ->
  let vs := subs (mem s) sub n in
  Forall (fun v => s_type v = 1 \/ s_type v = 2) vs ->
  let (s1, o1) := rt_poll (w_polls (wd s)) (if reads vs then POLLIN else 0) (if writes vs then POLLOUT else 0) s in
  let (s', o) := invoke k lib_poll_oneoff [sub; out; Z.of_nat n; np] s in
  pages s' = pages s /\ wd s' = wd s1 /\
  exists evs, len evs <= len vs /\ Forall (fun e => exists v, In v vs /\ answers e v) evs /\
    (forall v, In v vs -> s_fd v <> 0 -> s_fd v <> 4 -> s_fd v < 3 /\ s_type v = 1 \/ exists e, In e evs /\ answers e v) /\
    match o1 with
    | Next (Some f) => o = Ret (Some ESUCCESS) /\ mem s' = put_bytes (put_events (mem s) out evs) np (le 4 (len evs)) /\
        (forall u t, In (Ready u t 65536) evs -> Z.land f (if t =? 1 then POLLIN else POLLOUT) <> 0)
    | _ => o = o1 /\ mem s' = put_events (mem s) out evs
    end.
Proof.
  intros (Hm & Hp & _) Hs Ho Hnp Hk Hn Hb1 Hb2 Hb3 Hap vs Ht. destruct s as [m p l w]. unfold mem_size in *. cbn [mem pages wd] in *.
  change POLLIN with 1. change POLLOUT with 4. change (reads vs) with (existsb isread vs). change (writes vs) with (existsb iswrite vs).
  unfold lib_poll_oneoff. winit. wstep. cbn [mem pages wd].
  change (Loop (BrIf 1 (Eqz (Get 2)) :: _)) with (Loop poll_body).
  destruct (poll_loop np 0 p n k m w sub out 0 0 0 0 0 0 0) as (sub' & n' & ty & fd & E); auto; try lia.
  unfold pl in E. rewrite E. wstep. clear E. change (0 + len ?x) with (len x). fold vs.
  set (imm := concat (map immediate vs)) in *.
  assert (SOUND : Forall (fun e => exists v, In v vs /\ answers e v) imm).
  { apply Forall_forall. intros e He. unfold imm in He. apply in_concat in He. destruct He as (l0 & L1 & L2). apply in_map_iff in L1.
    destruct L1 as (v & <- & L1). exists v. split; [exact L1|]. unfold immediate in L2.
    destruct (Z.eqb_spec (s_fd v) 4) as [|N4]; [destruct L2|]. destruct (Z.leb_spec 3 (s_fd v)).
    - destruct L2 as [<- | []]. cbn. auto.
    - destruct (_ && _) eqn:B; [|destruct L2]. destruct L2 as [<- | []]. apply andb_true_iff in B. destruct B as [B1 B2].
      apply Z.eqb_eq in B2. apply orb_true_iff in B1. rewrite !Z.eqb_eq in B1. cbn [answers]. split; [reflexivity|]. split; [congruence|]. right. tauto. }
  assert (COMPL : forall v, In v vs -> s_fd v <> 0 -> s_fd v <> 4 -> s_fd v < 3 /\ s_type v = 1 \/ exists e, In e imm /\ answers e v).
  { intros v Hv N0 N4. pose proof (proj1 (Forall_forall _ _) Ht v Hv) as Tv. cbn beta in Tv.
    assert (IM : forall e, In e (immediate v) -> In e imm) by (intros e He; apply in_concat; exists (immediate v); split; [apply in_map; exact Hv | exact He]).
    unfold immediate in IM. rewrite (proj2 (Z.eqb_neq _ _) N4) in IM.
    destruct (Z.leb_spec 3 (s_fd v)).
    - right. exists (Bad (s_user v)). split; [apply IM; left; reflexivity|]. cbn. auto.
    - destruct Tv as [Tv|Tv]; [left; split; [lia|exact Tv]|]. right. exists (Ready (s_user v) 2 1).
      assert (F : s_fd v = 1 \/ s_fd v = 2).
      { assert (0 <= s_fd v); [|lia]. unfold vs in Hv. clear -Hv Hm. revert sub Hv. induction n; intros sub Hv; cbn [subs] in Hv; [destruct Hv|].
        destruct Hv as [<- | Hv]; [cbn [s_fd]; apply (u32_at_range m (sub + 16) Hm) | eauto]. }
      split; [apply IM|cbn [answers]; split; [reflexivity|]; split; [congruence|]; right; tauto].
      rewrite Tv. change (2 =? 2) with true. rewrite andb_true_r.
      destruct F as [-> | ->]; cbn; auto. }
  assert (LI : len imm <= len vs) by (pose proof (len_events vs 0) as L; unfold polled in L; cbn [Z.land Z.eqb app] in L; rewrite app_nil_r in L; apply L; cbn; congruence).
  assert (LV : len vs = Z.of_nat n). { unfold vs. clear. revert sub; induction n; intros; unfold len in *; cbn [subs length]; [reflexivity|]. rewrite Nat2Z.inj_succ, IHn. lia. }
  cbn [call_rt wd].
  rewrite (rt_poll_loc _ _ _ m p l), (rt_poll_loc _ _ _ (put_events m out imm) p [sub'; _; _; _; _; _; _; _; _; _; _; _]).
  assert (PM : forall ans a b m1 m2 w0, rt_poll ans a b (St m1 p [] w0) = let (s, o) := rt_poll ans a b (St m2 p [] w0) in (St m1 p [] (wd s), o)).
  { clear. induction ans as [|x rest IH]; intros; cbn [rt_poll]; [reflexivity|]. unfold set_wd. cbn [mem pages loc wd].
    destruct x; [|destruct (_ || _); reflexivity].
    destruct (_ && _); [apply IH|]. destruct (negb _); [reflexivity|]. destruct (negb _); [reflexivity|]. destruct (negb _); reflexivity. }
  rewrite (PM _ _ _ (put_events m out imm) m w).
  destruct (rt_poll_cases (w_polls w) (if existsb isread vs then 1 else 0) (if existsb iswrite vs then 4 else 0) m p [] w) as (wp & o & E & _ & C).
  rewrite E. unfold rt3, unrt3. cbn [fst snd mem wd].
  destruct o as [[f|]|y|v|e|g| |]; try contradiction.
  2:{ wstep. cbn [pages wd mem]. split; [reflexivity|]. split; [reflexivity|]. exists imm. auto 10. }
  2:{ wstep. cbn [pages wd mem]. split; [reflexivity|]. split; [reflexivity|]. exists imm. auto 10. }
  destruct (rt_poll_bits _ _ _ _ _ _ E) as [B1 B2].
  pose proof (len_events vs f B1 B2) as LE. fold imm in LE.
  assert (FIN : exists sub'' out'', 
    match exec (eval k) [If (Bin And32 (Get 10) (Const 1)) [Store 8 0 (Get 1) (Get 8); Store 2 8 (Get 1) (Const 0); Store 1 10 (Get 1) (Const 1); Store 8 16 (Get 1) (Const 65536); Store 2 24 (Get 1) (Const 0); Set_ 1 (Bin Add32 (Get 1) (Const 32)); Set_ 11 (Bin Add32 (Get 11) (Const 1))] [];
      If (Bin And32 (Get 10) (Const 4)) [Store 8 0 (Get 1) (Get 9); Store 2 8 (Get 1) (Const 0); Store 1 10 (Get 1) (Const 2); Store 8 16 (Get 1) (Const 65536); Store 2 24 (Get 1) (Const 0); Set_ 1 (Bin Add32 (Get 1) (Const 32)); Set_ 11 (Bin Add32 (Get 11) (Const 1))] [];
      Store 4 0 (Get 3) (Get 11); Block [BrIf 0 (Const 1); Call0 RtNop]; Const 0]
      (St (put_events m out imm) p [sub'; out + 32 * len imm; n'; np; ty; fd; if existsb isread vs then 1 else 0; if existsb iswrite vs then 4 else 0;
         last_of isread vs 0; last_of iswrite vs 0; f; len imm] wp) with
    | (s', Next v) => (s', Ret v) | (s', Brk O) => (s', Ret None) | r => r end =
    (St (put_bytes (put_events m out (imm ++ polled vs f)) np (le 4 (len (imm ++ polled vs f)))) p sub'' wp, out'') /\ out'' = Ret (Some 0)).
  { unfold is_u32 in *. pose proof (len_nonneg imm) as L0.
    rewrite put_events_app. rewrite len_app in LE |- *. unfold polled in *. wstep.
    assert (NW : len imm + 1 <= Z.of_nat n -> out + 32 * len imm + 32 <= p * 65536) by lia.
    destruct (Z.eqb_spec (Z.land f 1) 0) as [F1|F1]; wstep.
    - destruct (Z.eqb_spec (Z.land f 4) 0) as [F4|F4]; wstep.
      + rewrite store_in by lia. wstep. do 2 eexists. split; [|reflexivity]. unfold len at 4. cbn [length app put_events].
        rewrite !Z.add_0_r. reflexivity.
      + cbn [app] in *. change (len [_]) with 1 in *.
        do 6 (rewrite store_in by lia; wstep). 
        rewrite (u32_small (len imm + 1)) by (unfold is_u32; lia). do 2 eexists. split; [|reflexivity]. cbn [put_events put_event]. rewrite !Z.add_0_r. reflexivity.
    - destruct (Z.eqb_spec (Z.land f 4) 0) as [F4|F4]; wstep.
      + rewrite app_nil_r in *. change (len [_]) with 1 in *.
        do 5 (rewrite store_in by lia; wstep). rewrite (proj2 (Z.eqb_eq _ _) F4). wstep. rewrite store_in by lia. wstep.
        rewrite (u32_small (len imm + 1)) by (unfold is_u32; lia). do 2 eexists. split; [|reflexivity]. cbn [put_events put_event]. rewrite !Z.add_0_r. reflexivity.
      + cbn [app] in *. change (len [_; _]) with 2 in *.
        do 5 (rewrite store_in by lia; wstep). rewrite (u32_small (out + 32 * len imm + 32)) by (unfold is_u32; lia). rewrite (proj2 (Z.eqb_neq _ _) F4). wstep.
        do 6 (rewrite store_in by lia; wstep).
        rewrite (u32_small (len imm + 1)) by (unfold is_u32; lia). rewrite (u32_small (len imm + 1 + 1)) by (unfold is_u32; lia).
        do 2 eexists. split; [|reflexivity]. cbn [put_events put_event]. rewrite !Z.add_0_r. replace (len imm + 1 + 1) with (len imm + 2) by lia. reflexivity. }
  destruct FIN as (l2 & o2 & FIN & ->). rewrite andv_Next, setl_St, !upd_S, upd_O, thn_Next, FIN. clear FIN. cbn [pages wd mem].
  split; [reflexivity|]. split; [reflexivity|]. exists (imm ++ polled vs f). split; [exact LE|].
  split.
  { apply Forall_app. split; [exact SOUND|]. unfold polled. apply Forall_app. split.
    - destruct (Z.eqb_spec (Z.land f 1) 0) as [|F]; constructor; [|constructor].
      destruct (last_of_in isread vs 0 (B1 F)) as (v & V1 & V2 & V3). exists v. split; [exact V1|]. cbn [answers].
      apply andb_true_iff in V2. rewrite !Z.eqb_eq in V2. split; [congruence|]. split; [symmetry; tauto|]. left. tauto.
    - destruct (Z.eqb_spec (Z.land f 4) 0) as [|F]; constructor; [|constructor].
      destruct (last_of_in iswrite vs 0 (B2 F)) as (v & V1 & V2 & V3). exists v. split; [exact V1|]. cbn [answers].
      apply andb_true_iff in V2. rewrite !Z.eqb_eq in V2. split; [congruence|]. split; [symmetry; tauto|]. left. tauto. }
  split.
  { intros v V1 V2 V3. destruct (COMPL v V1 V2 V3) as [X | (e & X1 & X2)]; [left; exact X|]. right. exists e. split; [apply in_or_app; auto | exact X2]. }
  split; [reflexivity|]. split; [reflexivity|].
  intros u t Hin. apply in_app_or in Hin. destruct Hin as [Hin|Hin].
  - exfalso. unfold imm in Hin. apply in_concat in Hin. destruct Hin as (l0 & L1 & L2). apply in_map_iff in L1. destruct L1 as (v & <- & _).
    unfold immediate in L2. destruct (_ =? 4); [destruct L2|]. destruct (_ <=? _); [destruct L2 as [X|[]]; discriminate X|].
    destruct (_ && _); [destruct L2 as [X|[]]; discriminate X | destruct L2].
  - unfold polled in Hin. apply in_app_or in Hin. destruct Hin as [Hin|Hin].
    + destruct (Z.eqb_spec (Z.land f 1) 0) as [|F]; [destruct Hin|]. destruct Hin as [X|[]]. assert (t = 1) as -> by congruence. exact F.
    + destruct (Z.eqb_spec (Z.land f 4) 0) as [|F]; [destruct Hin|]. destruct Hin as [X|[]]. assert (t = 2) as -> by congruence. exact F.
Qed.
