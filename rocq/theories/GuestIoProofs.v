(* GuestIoProofs.v: proofs about the transfer loops of the guest library. *)
From Verif Require Import GuestLibSpec GuestLib BaseLemmas GuestLibProofs.

(** ** Lists and memory *)
Lemma bytes_at_length m a n : length (bytes_at m a n) = n.
Proof. revert a; induction n; intros; cbn [bytes_at length]; congruence. Qed.
Lemma bytes_at_app m a i j : bytes_at m a (i + j) = bytes_at m a i ++ bytes_at m (a + Z.of_nat i) j.
Proof.
  revert a; induction i; intros; cbn [Nat.add bytes_at app].
  - f_equal. lia.
  - f_equal. rewrite IHi. do 2 f_equal. lia.
Qed.
Lemma bytes_at_firstn m a i n : (i <= n)%nat -> bytes_at m a i = firstn i (bytes_at m a n).
Proof.
  intros. replace n with (i + (n - i))%nat by lia. rewrite bytes_at_app, firstn_app, bytes_at_length.
  replace (i - i)%nat with 0%nat by lia. cbn [firstn]. rewrite app_nil_r.
  symmetry. apply firstn_all2. rewrite bytes_at_length. lia.
Qed.
Lemma bytes_at_ok m a n : (forall x, 0 <= m x < 256) -> Forall (fun b => 0 <= b < 256) (bytes_at m a n).
Proof. intros. revert a; induction n; intros; cbn [bytes_at]; constructor; auto. Qed.
Lemma unle_range l : Forall (fun b => 0 <= b < 256) l -> 0 <= unle l < 256 ^ Z.of_nat (length l).
Proof.
  induction 1; cbn [unle length].
  - cbn. lia.
  - rewrite Nat2Z.inj_succ, Z.pow_succ_r by lia. lia.
Qed.
Lemma u32_at_range m a : (forall x, 0 <= m x < 256) -> is_u32 (u32_at m a).
Proof.
  intros. unfold is_u32, u32_at. pose proof (unle_range _ (bytes_at_ok m a 4 H)) as R.
  rewrite bytes_at_length in R. change (256 ^ Z.of_nat 4) with (2 ^ 32) in R. exact R.
Qed.
Lemma u32_small x : is_u32 x -> u32 x = x.
Proof. intros H. apply Z.mod_small. exact H. Qed.
Lemma put_bytes_other m a l x : x < a \/ a + len l <= x -> put_bytes m a l x = m x.
Proof.
  revert m a; induction l; intros m b H; cbn [put_bytes].
  - reflexivity.
  - unfold len in H. cbn [length] in H. rewrite IHl by (unfold len; lia).
    destruct (Z.eqb_spec x b); [lia | reflexivity].
Qed.
Lemma put_bytes_ok m a l : (forall x, 0 <= m x < 256) -> Forall (fun b => 0 <= b < 256) l -> forall x, 0 <= put_bytes m a l x < 256.
Proof.
  intros Hm Hl. revert m a Hm; induction Hl; intros; cbn [put_bytes]; auto.
  apply IHHl. intros y. destruct (y =? a); auto.
Qed.
Lemma bytes_at_same m m' a n : (forall x, a <= x < a + Z.of_nat n -> m' x = m x) -> bytes_at m' a n = bytes_at m a n.
Proof.
  revert a; induction n; intros; cbn [bytes_at]; [reflexivity|].
  f_equal; [apply H; lia | apply IHn; intros; apply H; lia].
Qed.

(** ** Runtime functions without locals *)
Definition rt3 (r : st * out) : (Z -> Z) * world * out := (mem (fst r), wd (fst r), snd r).
Definition wr (a n : Z) (m : Z -> Z) (p : Z) (w : world) := rt3 (rt_write a n (St m p [] w)).
Definition rd (a n : Z) (m : Z -> Z) (p : Z) (w : world) := rt3 (rt_read a n (St m p [] w)).
Definition unrt3 (p : Z) (l : list Z) (r : (Z -> Z) * world * out) : st * out := let '(m, w, o) := r in (St m p l w, o).
Lemma rt_write_loc a n m p l w : rt_write a n (St m p l w) = unrt3 p l (wr a n m p w).
Proof.
  unfold wr, rt3, unrt3, rt_write, io_prologue. cbn [mem pages wd loc].
  destruct (n =? 0); [reflexivity|]. destruct (_ <? _); [reflexivity|].
  destruct (w_writes w); [reflexivity|]. destruct (0 <? Z.min z n); [reflexivity|].
  destruct (_ || _); reflexivity.
Qed.
Lemma rt_read_loc a n m p l w : rt_read a n (St m p l w) = unrt3 p l (rd a n m p w).
Proof.
  unfold rd, rt3, unrt3, rt_read, io_prologue. cbn [mem pages wd loc].
  destruct (n =? 0); [reflexivity|]. destruct (_ <? _); [reflexivity|].
  destruct (w_reads w); [reflexivity|]. destruct (0 <=? z); [reflexivity|].
  destruct (_ || _); reflexivity.
Qed.

(** ** The transfer loop *)
(* One iteration, with locals for the vectors' address, their number, the total, the buffer's length and the
   result of the call *)
Definition xfer_iter (rt : Z -> Z -> (Z -> Z) -> Z -> world -> (Z -> Z) * world * out) (body : list ins) (lbl : nat)
    (mk : Z -> Z -> Z -> Z -> Z -> list Z) : Prop :=
  forall k m p w iov n nw bl x, exec (eval k) body (St m p (mk iov n nw bl x) w) =
    if n =? 0 then (St m p (mk iov n nw bl x) w, Brk (S lbl))
    else if p * 65536 <? iov + 4 + 4 then (St m p (mk iov n nw bl x) w, Exit 105)
    else let bl' := u32_at m (iov + 4) in
      if p * 65536 <? iov + 0 + 4 then (St m p (mk iov n nw bl x) w, Exit 105)
      else match rt (u32_at m iov) bl' m p w with
           | (m', w', Next (Some c)) =>
               if c =? bl' then (St m' p (mk (u32 (iov + 8)) (u32 (n - 1)) (u32 (nw + c)) bl' c) w', Brk 0)
               else (St m' p (mk iov n (u32 (nw + c)) bl' c) w', Brk (S lbl))
           | (m', w', Next None) => (St m' p (mk iov n nw bl' x) w', Wrong)
           | (m', w', o) => (St m' p (mk iov n nw bl' x) w', o)
           end.
Definition write_body : list ins :=
  [BrIf 2 (Eqz (Get 2)); Set_ 5 (Load 4 4 (Get 1)); Set_ 6 (Call2 RtWrite (Load 4 0 (Get 1)) (Get 5));
   Set_ 4 (Bin Add32 (Get 4) (Get 6)); BrIf 2 (Bin Ne32 (Get 6) (Get 5)); Set_ 1 (Bin Add32 (Get 1) (Const 8));
   Set_ 2 (Bin Sub32 (Get 2) (Const 1)); Br 0].
Ltac iter lem :=
  intros k m p w iov n nw bl x; wstep; cbn [call_rt];
  destruct (n =? 0); wstep; [reflexivity|];
  unfold load, mem_size; cbn [pages mem]; change (Z.of_nat 4) with 4;
  destruct (p * 65536 <? iov + 4 + 4) eqn:E1; wstep; [reflexivity|];
  replace (p * 65536 <? iov + 0 + 4) with false by (symmetry; apply Z.ltb_ge; apply Z.ltb_ge in E1; lia);
  wstep; unfold load, mem_size; cbn [pages mem]; change (Z.of_nat 4) with 4;
  replace (p * 65536 <? iov + 0 + 4) with false by (symmetry; apply Z.ltb_ge; apply Z.ltb_ge in E1; lia);
  wstep; cbn [call_rt]; rewrite lem; rewrite Z.add_0_r;
  change (unle (bytes_at m iov 4)) with (u32_at m iov); change (unle (bytes_at m (iov + 4) 4)) with (u32_at m (iov + 4)).
Lemma write_iter fd np : xfer_iter wr write_body 1 (fun iov n nw bl x => [fd; iov; n; np; nw; bl; x]).
Proof.
  unfold write_body. iter rt_write_loc.
  destruct (wr _ _ m p w) as [[m' w'] o]. cbn [unrt3].
  destruct o as [[c|]| | | | | |]; wstep; try reflexivity.
  destruct (c =? u32_at m (iov + 4)); wstep; reflexivity.
Qed.

(** ** Sending *)
Lemma sends_refl w : sends w w [].
Proof. exists (w_writes w). rewrite app_nil_r. destruct w; reflexivity. Qed.
Lemma sends_trans w w1 w2 d e : sends w w1 d -> sends w1 w2 e -> sends w w2 (d ++ e).
Proof. intros [r1 ->] [r2 ->]. exists r2. cbn. rewrite app_assoc. reflexivity. Qed.

Lemma wr_cases a n m p w : is_u32 n -> is_u32 a -> 0 <= p < 65536 ->
  exists d w' o, wr a n m p w = (m, w', o) /\ sends w w' d /\ (all_accepted w -> all_accepted w') /\
    match o with
    | Next (Some c) => d = bytes_at m a (Z.to_nat c) /\ 0 <= c <= n /\ (all_accepted w -> c = n) /\ a + c <= p * 65536 + (if c =? 0 then 2 ^ 32 else 0)
    | Exit e => d = [] /\ (e = 105 /\ p * 65536 < a + n \/ e = ERR_RT_WRITE)
    | Blocked f => d = [] /\ f = RtWrite
    | _ => False
    end.
Proof.
  intros Hn Ha Hp. unfold wr, rt3, rt_write, io_prologue. cbn [mem pages wd].
  assert (E : u32 (p * 65536) = p * 65536) by (apply u32_small; unfold is_u32; lia). rewrite E.
  destruct (Z.eqb_spec n 0) as [->|N0].
  - exists [], w, (Next (Some 0)). cbn [fst snd mem wd]. split; [reflexivity|]. split; [apply sends_refl|]. split; [auto|].
    split; [reflexivity|]. cbn [Z.eqb]. unfold is_u32 in *. lia.
  - destruct (Z.ltb_spec (p * 65536) (a + n)).
    + exists [], w, (Exit 105). cbn [fst snd mem wd]. split; [reflexivity|]. split; [apply sends_refl|]. split; [auto|]. auto.
    + destruct (w_writes w) as [|r rest] eqn:EW.
      * exists [], w, (Blocked RtWrite). cbn [fst snd mem wd]. split; [reflexivity|]. split; [apply sends_refl|]. auto.
      * unfold is_u32 in *. destruct (Z.ltb_spec 0 (Z.min r n)).
        -- eexists (bytes_at m a (Z.to_nat (Z.min r n))), _, (Next (Some (Z.min r n))). cbn [fst snd mem wd set_wd].
           split; [reflexivity|]. split; [exists rest; reflexivity|]. split.
           { unfold all_accepted. cbn [w_writes]. rewrite EW. intros F. inversion F; assumption. }
           split; [reflexivity|]. split; [lia|]. split.
           { unfold all_accepted. rewrite EW. intros F. inversion F; lia. }
           destruct (Z.min r n =? 0); lia.
        -- assert (A : ~ all_accepted w). { unfold all_accepted. rewrite EW. intros F. inversion F; lia. }
           destruct (_ || _).
           ++ eexists [], _, (Next (Some 0)). cbn [fst snd mem wd set_wd]. split; [reflexivity|].
              split; [exists rest; rewrite app_nil_r; reflexivity|]. split; [tauto|].
              split; [reflexivity|]. split; [lia|]. split; [tauto|]. cbn [Z.eqb]. lia.
           ++ eexists [], _, (Exit ERR_RT_WRITE). cbn [fst snd mem wd set_wd]. split; [reflexivity|].
              split; [exists rest; rewrite app_nil_r; reflexivity|]. split; [tauto|]. auto.
Qed.

Lemma gather_cons m a n l : gather m ((a, n) :: l) = bytes_at m a (Z.to_nat n) ++ gather m l. Proof. reflexivity. Qed.
Lemma len_app {A} (l l' : list A) : len (l ++ l') = len l + len l'.
Proof. unfold len. rewrite app_length. lia. Qed.
Lemma len_bytes_at m a n : 0 <= n -> len (bytes_at m a (Z.to_nat n)) = n.
Proof. intros. unfold len. rewrite bytes_at_length. lia. Qed.
Lemma len_nonneg {A} (l : list A) : 0 <= len l. Proof. unfold len. lia. Qed.
Lemma firstn_plus {A} (l l' : list A) c : firstn (length l + c) (l ++ l') = l ++ firstn c l'.
Proof. rewrite firstn_app. replace (length l + c - length l)%nat with c by lia. rewrite firstn_all2 by lia. reflexivity. Qed.


Lemma send_loop body lbl mk : xfer_iter wr body lbl mk -> forall n k m p w iov nw bl x,
  (n <= k)%nat -> Z.of_nat n < 2 ^ 32 -> (forall a, 0 <= m a < 256) -> 0 <= p < 65536 -> is_u32 iov -> 0 <= nw ->
  nw + len (gather m (iovs m iov n)) < 2 ^ 32 ->
  exists iov' n' nw' bl' x' d w' o, 
    eval k (Loop body) (St m p (mk iov (Z.of_nat n) nw bl x) w) = (St m p (mk iov' n' nw' bl' x') w', o) /\
    prefix_of d (gather m (iovs m iov n)) /\ sends w w' d /\
    match o with
    | Brk b => b = lbl /\ nw' = nw + len d /\ (all_accepted w -> d = gather m (iovs m iov n)) /\ (d <> [] -> iov + 8 <= p * 65536)
    | Exit e => e = 105 \/ e = ERR_RT_WRITE
    | Blocked f => f = RtWrite
    | _ => False
    end.
Proof.
  intros IT. induction n; intros k m p w iov nw bl x Hk Hn Hm Hp Hi Hw Ht; rewrite eval_Loop, IT.
  - cbn [Z.of_nat Z.eqb]. do 5 eexists. exists [], w, (Brk lbl). split; [reflexivity|].
    split; [exists 0%nat; cbn; auto|]. split; [apply sends_refl|]. unfold len. cbn. split; [reflexivity|]. split; [lia|]. split; [auto | congruence].
  - destruct (Z.eqb_spec (Z.of_nat (S n)) 0) as [|_]; [lia|].
    assert (PN : forall l, prefix_of [] l) by (intros; exists 0%nat; cbn; split; [lia|reflexivity]).
    destruct (Z.ltb_spec (p * 65536) (iov + 4 + 4)).
    { do 5 eexists. exists [], w, (Exit 105). split; [reflexivity|]. split; [apply PN|]. split; [apply sends_refl|]. auto. }
    cbv zeta. destruct (Z.ltb_spec (p * 65536) (iov + 0 + 4)); [lia|].
    pose proof (u32_at_range m iov Hm) as RA. pose proof (u32_at_range m (iov + 4) Hm) as RN.
    set (a := u32_at m iov) in *. set (l := u32_at m (iov + 4)) in *.
    destruct (wr_cases a l m p w RN RA Hp) as (d & w' & o & E & S1 & AA & C). rewrite E.
    cbn [iovs] in Ht |- *. fold a l in Ht |- *. rewrite gather_cons in Ht |- *. rewrite len_app in Ht.
    unfold is_u32 in RN, RA, Hi. rewrite len_bytes_at in Ht by lia.
    pose proof (len_nonneg (gather m (iovs m (iov + 8) n))) as LG.
    destruct o as [[c|]|b|v|e|f| |]; try contradiction.
    + destruct C as (-> & C1 & C2 & C3). rewrite (u32_small (nw + c)) by (unfold is_u32; lia).
      destruct (Z.eqb_spec c l) as [->|NE].
      * destruct k as [|k]; [lia|]. rewrite (u32_small (iov + 8)) by (unfold is_u32; lia).
        rewrite (u32_small (Z.of_nat (S n) - 1)) by (unfold is_u32; lia).
        replace (Z.of_nat (S n) - 1) with (Z.of_nat n) by lia.
        destruct (IHn k m p w' (iov + 8) (nw + l) l l) as (i' & n' & nw' & bl' & x' & d' & w2 & o & E2 & P2 & S2 & C); try lia; auto; [unfold is_u32; lia|].
        rewrite E2. exists i', n', nw', bl', x', (bytes_at m a (Z.to_nat l) ++ d'), w2, o.
        split; [reflexivity|]. split.
        { destruct P2 as (c & L & ->). exists (length (bytes_at m a (Z.to_nat l)) + c)%nat. rewrite firstn_plus, app_length. split; [lia|reflexivity]. }
        split; [eapply sends_trans; eauto|].
        destruct o; try contradiction; auto. destruct C as (-> & -> & C & _). split; [reflexivity|].
        split; [rewrite len_app, len_bytes_at by lia; lia|]. split; [|lia]. intros A. f_equal. auto.
      * do 5 eexists. exists (bytes_at m a (Z.to_nat c)), w', (Brk lbl). split; [reflexivity|].
        split.
        { exists (Z.to_nat c). rewrite app_length, bytes_at_length. split; [lia|].
          rewrite firstn_app, bytes_at_length. replace (Z.to_nat c - Z.to_nat l)%nat with 0%nat by lia.
          cbn [firstn]. rewrite app_nil_r. apply bytes_at_firstn. lia. }
        split; [exact S1|]. split; [reflexivity|]. split; [rewrite len_bytes_at by lia; lia|].
        split; [intros A; specialize (C2 A); lia | lia].
    + destruct C as (-> & C). do 5 eexists. exists [], w', (Exit e). split; [reflexivity|]. split; [apply PN|]. split; [exact S1|]. tauto.
    + destruct C as (-> & C). do 5 eexists. exists [], w', (Blocked f). split; [reflexivity|]. split; [apply PN|]. split; [exact S1|]. auto.
Qed.

(** ** Receiving *)
Lemma receives_refl w : receives w w [].
Proof. exists (w_reads w), (w_input w). split; [reflexivity|]. destruct w; reflexivity. Qed.
Lemma receives_trans w w1 w2 d e : receives w w1 d -> receives w1 w2 e -> receives w w2 (d ++ e).
Proof.
  intros (r1 & i1 & E1 & ->) (r2 & i2 & E2 & ->). exists r2, i2. cbn in E2 |- *. rewrite E1, E2, <- app_assoc. split; reflexivity.
Qed.
Definition input_ok (w : world) : Prop := Forall (fun b => 0 <= b < 256) (w_input w).
Lemma receives_ok w w' d : receives w w' d -> input_ok w -> input_ok w' /\ Forall (fun b => 0 <= b < 256) d.
Proof. intros (r & i & E & ->). unfold input_ok. rewrite E. cbn. intros F. apply Forall_app in F. tauto. Qed.

Lemma rd_cases a n m p w : is_u32 n -> is_u32 a -> 0 <= p < 65536 ->
  exists d w' o, rd a n m p w = (put_bytes m a d, w', o) /\ receives w w' d /\ (all_available w -> all_available w') /\
    match o with
    | Next (Some c) => c = len d /\ 0 <= c <= n /\ (all_available w -> c = n \/ w_input w' = [])
    | Exit e => d = [] /\ (e = 105 \/ e = ERR_RT_READ)
    | Blocked f => d = [] /\ f = RtRead
    | _ => False
    end.
Proof.
  intros Hn Ha Hp. unfold rd, rt3, rt_read, io_prologue. cbn [mem pages wd].
  assert (E : u32 (p * 65536) = p * 65536) by (apply u32_small; unfold is_u32; lia). rewrite E.
  destruct (Z.eqb_spec n 0) as [->|N0].
  - exists [], w, (Next (Some 0)). cbn [fst snd mem wd put_bytes]. split; [reflexivity|]. split; [apply receives_refl|]. split; [auto|].
    split; [reflexivity|]. lia.
  - destruct (Z.ltb_spec (p * 65536) (a + n)).
    + exists [], w, (Exit 105). cbn [fst snd mem wd put_bytes]. split; [reflexivity|]. split; [apply receives_refl|]. split; [auto|]. auto.
    + destruct (w_reads w) as [|r rest] eqn:EW.
      * exists [], w, (Blocked RtRead). cbn [fst snd mem wd put_bytes]. split; [reflexivity|]. split; [apply receives_refl|]. auto.
      * unfold is_u32 in *. destruct (Z.leb_spec 0 r).
        -- set (c := Z.to_nat (Z.min r (Z.min n (len (w_input w))))).
           assert (Hc : (c <= length (w_input w))%nat) by (unfold c, len; lia).
           eexists (firstn c (w_input w)), _, (Next (Some (Z.of_nat c))). cbn [fst snd mem wd set_wd set_mem].
           split; [reflexivity|]. split; [exists rest, (skipn c (w_input w)); split; [symmetry; apply firstn_skipn | reflexivity]|]. split.
           { unfold all_available. cbn [w_reads]. rewrite EW. intros F. inversion F; assumption. }
           split; [unfold len; rewrite firstn_length; lia|]. split; [unfold c; lia|].
           unfold all_available. rewrite EW. intros F. cbn [w_input]. inversion F; subst.
           destruct (Z.le_gt_cases n (len (w_input w))); [left; unfold c; lia | right].
           apply skipn_all2. unfold c. unfold len in *. lia.
        -- assert (A : ~ all_available w). { unfold all_available. rewrite EW. intros F. inversion F; lia. }
           replace (Z.to_nat (Z.min r (Z.min n (len (w_input w))))) with 0%nat by lia. cbn [skipn].
           destruct (_ || _).
           ++ eexists [], _, (Next (Some 0)). cbn [fst snd mem wd set_wd set_mem put_bytes]. split; [reflexivity|].
              split; [exists rest, (w_input w); split; reflexivity|]. split; [tauto|].
              split; [reflexivity|]. split; [lia|]. tauto.
           ++ eexists [], _, (Exit ERR_RT_READ). cbn [fst snd mem wd set_wd put_bytes]. split; [reflexivity|].
              split; [exists rest, (w_input w); split; reflexivity|]. split; [tauto|]. auto.
Qed.

Lemma scatter_nil m l : scatter m l [] = m.
Proof. revert m; induction l as [|[a n] l]; intros; cbn [scatter]; [reflexivity|]. rewrite firstn_nil, skipn_nil. apply IHl. Qed.
Lemma iovs_same m m' a n : (forall x, a <= x < a + 8 * Z.of_nat n -> m' x = m x) -> iovs m' a n = iovs m a n.
Proof.
  revert a; induction n; intros; cbn [iovs]; [reflexivity|].
  f_equal; [f_equal; unfold u32_at; f_equal; apply bytes_at_same; intros; apply H; lia | apply IHn; intros; apply H; lia].
Qed.
Lemma iovs_ok m a n : (forall x, 0 <= m x < 256) -> Forall (fun v => is_u32 (fst v) /\ is_u32 (snd v)) (iovs m a n).
Proof.
  intros H. revert a; induction n; intros; cbn [iovs]; constructor; auto. cbn. split; apply u32_at_range; assumption.
Qed.
Lemma capacity_nonneg l : Forall (fun v => is_u32 (fst v) /\ is_u32 (snd v)) l -> 0 <= capacity l.
Proof. induction 1; cbn [capacity fold_right]; [lia|]. destruct H as [_ H]. unfold is_u32 in H. unfold capacity in IHForall. lia. Qed.

Lemma recv_loop body lbl mk : xfer_iter rd body lbl mk -> forall n k m p w iov nw bl x,
  (n <= k)%nat -> Z.of_nat n < 2 ^ 32 -> (forall a, 0 <= m a < 256) -> input_ok w -> 0 <= p < 65536 -> is_u32 iov -> 0 <= nw ->
  nw + capacity (iovs m iov n) < 2 ^ 32 ->
  Forall (fun v => apart (fst v) (snd v) iov (8 * Z.of_nat n)) (iovs m iov n) ->
  exists iov' n' nw' bl' x' d w' o, 
    eval k (Loop body) (St m p (mk iov (Z.of_nat n) nw bl x) w) = (St (scatter m (iovs m iov n) d) p (mk iov' n' nw' bl' x') w', o) /\
    len d <= capacity (iovs m iov n) /\ receives w w' d /\
    match o with
    | Brk b => b = lbl /\ nw' = nw + len d /\ (all_available w -> len d = capacity (iovs m iov n) \/ w_input w' = [])
    | Exit e => e = 105 \/ e = ERR_RT_READ
    | Blocked f => f = RtRead
    | _ => False
    end.
Proof.
  intros IT. induction n; intros k m p w iov nw bl x Hk Hn Hm Hin Hp Hi Hw Ht Hap; rewrite eval_Loop, IT.
  - cbn [Z.of_nat Z.eqb]. do 5 eexists. exists [], w, (Brk lbl). split; [reflexivity|].
    split; [unfold len; cbn; lia|]. split; [apply receives_refl|]. unfold len. cbn. split; [reflexivity|]. split; [lia|]. auto.
  - destruct (Z.eqb_spec (Z.of_nat (S n)) 0) as [|_]; [lia|].
    assert (CN : 0 <= capacity (iovs m iov (S n))) by (apply capacity_nonneg, iovs_ok, Hm).
    assert (L0 : len (@nil Z) <= capacity (iovs m iov (S n))) by (unfold len; cbn [length]; lia).
    destruct (Z.ltb_spec (p * 65536) (iov + 4 + 4)).
    { do 5 eexists. exists [], w, (Exit 105). rewrite scatter_nil. split; [reflexivity|]. split; [exact L0|]. split; [apply receives_refl|]. auto. }
    cbv zeta. destruct (Z.ltb_spec (p * 65536) (iov + 0 + 4)); [lia|].
    pose proof (u32_at_range m iov Hm) as RA. pose proof (u32_at_range m (iov + 4) Hm) as RN.
    cbn [iovs] in *. set (a := u32_at m iov) in *. set (l := u32_at m (iov + 4)) in *.
    destruct (rd_cases a l m p w RN RA Hp) as (d & w' & o & E & S1 & AA & C). rewrite E.
    assert (CT : 0 <= capacity (iovs m (iov + 8) n)) by (apply capacity_nonneg, iovs_ok, Hm).
    change (capacity ((a, l) :: iovs m (iov + 8) n)) with (l + capacity (iovs m (iov + 8) n)) in *.
    unfold is_u32 in RN, RA, Hi.
    destruct o as [[c|]|b|v|e|f| |]; try contradiction.
    + destruct C as (C0 & C1 & C2). rewrite (u32_small (nw + c)) by (unfold is_u32; lia).
      destruct (receives_ok _ _ _ S1 Hin) as [Hin' Hd].
      assert (SM : forall y, iov <= y < iov + 8 * Z.of_nat (S n) -> put_bytes m a d y = m y).
      { intros y Hy. inversion Hap as [|? ? Ha1 Ha2]; subst. cbn [fst snd] in Ha1. unfold apart in Ha1.
        destruct d as [|d0 d]; [reflexivity|]. apply put_bytes_other.
        assert (0 < len (d0 :: d)) by (unfold len; cbn [length]; lia). lia. }
      destruct (Z.eqb_spec c l) as [EQ|NE].
      * destruct k as [|k]; [lia|]. rewrite (u32_small (iov + 8)) by (unfold is_u32; lia).
        rewrite (u32_small (Z.of_nat (S n) - 1)) by (unfold is_u32; lia).
        replace (Z.of_nat (S n) - 1) with (Z.of_nat n) by lia.
        assert (EI : iovs (put_bytes m a d) (iov + 8) n = iovs m (iov + 8) n) by (apply iovs_same; intros; apply SM; lia).
        destruct (IHn k (put_bytes m a d) p w' (iov + 8) (nw + c) l c) as (i' & n' & nw' & bl' & x' & d' & w2 & o & E2 & P2 & S2 & C);
          try rewrite EI; try lia; auto.
        { apply put_bytes_ok; auto. }
        { unfold is_u32. lia. }
        { inversion Hap as [|? ? _ Ha2]; subst. eapply Forall_impl; [|exact Ha2]. cbn beta. intros v. unfold apart. lia. }
        rewrite EI in *. rewrite E2. exists i', n', nw', bl', x', (d ++ d'), w2, o.
        assert (LD : length d = Z.to_nat l) by (unfold len in C0; lia).
        split. { cbn [scatter]. rewrite firstn_app, skipn_app, LD. rewrite Nat.sub_diag. cbn [firstn skipn].
                 rewrite <- LD, firstn_all, skipn_all, app_nil_r. reflexivity. }
        rewrite len_app. split; [lia|]. split; [eapply receives_trans; eauto|].
        destruct o; try contradiction; auto. destruct C as (-> & -> & C). split; [reflexivity|]. split; [lia|].
        intros A. destruct (C (AA A)); [left; lia | right; assumption].
      * do 5 eexists. exists d, w', (Brk lbl).
        assert (LD : (length d <= Z.to_nat l)%nat) by (unfold len in C0; lia).
        split. { cbn [scatter]. rewrite firstn_all2, skipn_all2 by lia. rewrite scatter_nil. reflexivity. }
        split; [lia|]. split; [exact S1|]. split; [reflexivity|]. split; [lia|].
        intros A. destruct (C2 A); [lia | auto].
    + destruct C as (-> & C). do 5 eexists. exists [], w', (Exit e). cbn [put_bytes]. rewrite scatter_nil. split; [reflexivity|]. split; [exact L0|]. split; [exact S1|]. tauto.
    + destruct C as (-> & C). do 5 eexists. exists [], w', (Blocked f). cbn [put_bytes]. rewrite scatter_nil. split; [reflexivity|]. split; [exact L0|]. split; [exact S1|]. auto.
Qed.

(** ** Debug output *)
Lemma debugs_refl w : debugs w w [].
Proof. exists (w_debugs w). rewrite app_nil_r. destruct w; reflexivity. Qed.
Lemma debugs_trans w w1 w2 d e : debugs w w1 d -> debugs w1 w2 e -> debugs w w2 (d ++ e).
Proof. intros [r1 ->] [r2 ->]. exists r2. cbn. rewrite app_assoc. reflexivity. Qed.
Lemma prefix_nil l : prefix_of [] l.
Proof. exists 0%nat. cbn. split; [lia|reflexivity]. Qed.
Lemma prefix_refl l : prefix_of l l.
Proof. exists (length l). rewrite firstn_all. auto. Qed.
Lemma prefix_app_r d l l' : prefix_of d l' -> prefix_of (l ++ d) (l ++ l').
Proof. intros (c & L & ->). exists (length l + c)%nat. rewrite firstn_plus, app_length. split; [lia|reflexivity]. Qed.
Lemma prefix_app_l d l l' : prefix_of d l -> prefix_of d (l ++ l').
Proof.
  intros (c & L & ->). exists c. rewrite app_length, firstn_app. split; [lia|].
  replace (c - length l)%nat with 0%nat by lia. cbn [firstn]. rewrite app_nil_r. reflexivity.
Qed.

Lemma rt_debug_cases l m p : 0 <= p < 65536 -> forall answers a n w, w_debugs w = answers -> debug_works w -> is_u32 n -> is_u32 a -> 
  exists d w' o, rt_debug answers a n (St m p l w) = (St m p l w', o) /\ debugs w w' d /\ debug_works w' /\
    prefix_of d (bytes_at m a (Z.to_nat n)) /\
    match o with
    | Next v => v = Some 0 /\ d = bytes_at m a (Z.to_nat n)
    | Exit e => e = 105 \/ e = ERR_RT_DEBUG
    | Blocked f => f = RtDebug
    | _ => False
    end.
Proof.
  intros Hp. assert (E : u32 (p * 65536) = p * 65536) by (apply u32_small; unfold is_u32; lia).
  induction answers as [|r rest IH]; intros a n w EW DW Hn Ha; cbn [rt_debug]; unfold io_prologue; cbn [mem pages wd]; rewrite E;
  (destruct (Z.eqb_spec n 0) as [->|N0];
   [exists [], w, (Next (Some 0)); split; [reflexivity|]; split; [apply debugs_refl|]; split; [exact DW|]; split; [apply prefix_nil|]; split; reflexivity|]);
  (destruct (Z.ltb_spec (p * 65536) (a + n));
   [exists [], w, (Exit 105); split; [reflexivity|]; split; [apply debugs_refl|]; split; [exact DW|]; split; [apply prefix_nil|]; auto|]).
  - exists [], w, (Blocked RtDebug); split; [reflexivity|]; split; [apply debugs_refl|]; split; [exact DW|]; split; [apply prefix_nil|]; auto.
  - unfold set_wd. cbn [mem pages loc wd]. unfold is_u32 in *.
    set (w1 := World _ _ _ rest _ _ _ _ _ _).
    unfold debug_works in DW. rewrite EW in DW. inversion DW as [|? ? DW1 DW2]; subst.
    assert (DW' : debug_works w1) by exact DW2.
    assert (D1 : debugs w w1 (if 0 <? Z.min r n then bytes_at m a (Z.to_nat (Z.min r n)) else [])).
    { exists rest. unfold w1. destruct (0 <? Z.min r n); [reflexivity|]. rewrite app_nil_r. reflexivity. }
    destruct (Z.ltb_spec 0 (Z.min r n)).
    + destruct (Z.eqb_spec (n - Z.min r n) 0) as [Z0|Z0].
      * exists (bytes_at m a (Z.to_nat (Z.min r n))), w1, (Next (Some 0)). split; [reflexivity|]. split; [exact D1|].
        split; [exact DW'|]. replace (Z.min r n) with n by lia. split; [apply prefix_refl|]. auto.
      * destruct (IH (a + Z.min r n) (n - Z.min r n) w1) as (d & w' & o & E1 & D2 & DW3 & P & C); auto; try lia.
        assert (SP : bytes_at m a (Z.to_nat n) = bytes_at m a (Z.to_nat (Z.min r n)) ++ bytes_at m (a + Z.min r n) (Z.to_nat (n - Z.min r n))).
        { replace (Z.to_nat n) with (Z.to_nat (Z.min r n) + Z.to_nat (n - Z.min r n))%nat by lia. rewrite bytes_at_app.
          rewrite Z2Nat.id by lia. reflexivity. }
        exists (bytes_at m a (Z.to_nat (Z.min r n)) ++ d), w', o. split; [exact E1|]. split; [eapply debugs_trans; eauto|].
        split; [exact DW3|]. rewrite SP. split; [apply prefix_app_r, P|]. destruct o; auto. destruct C as [-> ->]. auto.
    + replace (Z.min r n =? 0) with false by (symmetry; apply Z.eqb_neq; lia).
      destruct (Z.min r n =? - EINTR).
      * destruct (IH a n w1) as (d & w' & o & E1 & D2 & DW3 & P & C); auto; try lia.
        exists d, w', o. split; [exact E1|]. split; [change d with ([] ++ d); eapply debugs_trans; eauto|]. auto.
      * exists [], w1, (Exit ERR_RT_DEBUG). split; [reflexivity|]. split; [exact D1|]. split; [exact DW'|]. split; [apply prefix_nil|]. auto.
Qed.

Definition debug_body : list ins :=
  [BrIf 2 (Eqz (Get 2)); Set_ 5 (Load 4 4 (Get 1)); Call2 RtDebug (Load 4 0 (Get 1)) (Get 5);
   Set_ 4 (Bin Add32 (Get 4) (Get 5)); Set_ 1 (Bin Add32 (Get 1) (Const 8)); Set_ 2 (Bin Sub32 (Get 2) (Const 1)); Br 0].
Lemma debug_loop fd np : forall n k m p w iov nw bl x,
  (n <= k)%nat -> Z.of_nat n < 2 ^ 32 -> (forall a, 0 <= m a < 256) -> debug_works w -> 0 <= p < 65536 -> is_u32 iov -> 0 <= nw ->
  nw + len (gather m (iovs m iov n)) < 2 ^ 32 ->
  exists iov' n' nw' bl' d w' o, 
    eval k (Loop debug_body) (St m p [fd; iov; Z.of_nat n; np; nw; bl; x] w) = (St m p [fd; iov'; n'; np; nw'; bl'; x] w', o) /\
    prefix_of d (gather m (iovs m iov n)) /\ debugs w w' d /\
    match o with
    | Brk b => b = 1%nat /\ nw' = nw + len d /\ d = gather m (iovs m iov n)
    | Exit e => e = 105 \/ e = ERR_RT_DEBUG
    | Blocked f => f = RtDebug
    | _ => False
    end.
Proof.
  induction n; intros k m p w iov nw bl x Hk Hn Hm DW Hp Hi Hw Ht; rewrite eval_Loop; unfold debug_body at 1; wstep.
  - cbn [Z.of_nat Z.eqb]. wstep. do 4 eexists. exists [], w, (Brk 1). split; [reflexivity|].
    split; [apply prefix_nil|]. split; [apply debugs_refl|]. unfold len. cbn. split; [reflexivity|]. split; [lia|]. reflexivity.
  - destruct (Z.eqb_spec (Z.of_nat (S n)) 0) as [|_]; [lia|]. wstep.
    unfold load, mem_size; cbn [pages mem]; change (Z.of_nat 4) with 4.
    destruct (Z.ltb_spec (p * 65536) (iov + 4 + 4)); wstep.
    { do 4 eexists. exists [], w, (Exit 105). split; [reflexivity|]. split; [apply prefix_nil|]. split; [apply debugs_refl|]. auto. }
    unfold load, mem_size; cbn [pages mem]; change (Z.of_nat 4) with 4.
    replace (p * 65536 <? iov + 0 + 4) with false by (symmetry; apply Z.ltb_ge; lia).
    wstep; cbn [call_rt wd]; rewrite Z.add_0_r.
    change (unle (bytes_at m iov 4)) with (u32_at m iov); change (unle (bytes_at m (iov + 4) 4)) with (u32_at m (iov + 4)).
    pose proof (u32_at_range m iov Hm) as RA. pose proof (u32_at_range m (iov + 4) Hm) as RN.
    cbn [iovs] in *. set (a := u32_at m iov) in *. set (l := u32_at m (iov + 4)) in *.
    rewrite gather_cons in Ht |- *. rewrite len_app in Ht.
    unfold is_u32 in RN, RA, Hi. rewrite len_bytes_at in Ht by lia.
    pose proof (len_nonneg (gather m (iovs m (iov + 8) n))) as LG.
    destruct (rt_debug_cases [fd; iov; Z.of_nat (S n); np; nw; l; x] m p Hp (w_debugs w) a l w eq_refl DW RN RA) as (d & w' & o & E & S1 & DW1 & P & C). rewrite E.
    destruct o as [v|b|v|e|f| |]; try contradiction; wstep.
    + destruct C as (-> & ->). wstep. rewrite (u32_small (nw + l)) by (unfold is_u32; lia).
      destruct k as [|k]; [lia|]. rewrite (u32_small (iov + 8)) by (unfold is_u32; lia).
      rewrite (u32_small (Z.of_nat (S n) - 1)) by (unfold is_u32; lia).
      replace (Z.of_nat (S n) - 1) with (Z.of_nat n) by lia.
      destruct (IHn k m p w' (iov + 8) (nw + l) l x) as (i' & n' & nw' & bl' & d' & w2 & o & E2 & P2 & S2 & C); try lia; auto; [unfold is_u32; lia|].
      rewrite E2. exists i', n', nw', bl', (bytes_at m a (Z.to_nat l) ++ d'), w2, o.
      split; [reflexivity|]. split; [apply prefix_app_r, P2|].
      split; [eapply debugs_trans; eauto|].
      destruct o; try contradiction; auto. destruct C as (-> & -> & ->). split; [reflexivity|].
      split; [rewrite len_app, len_bytes_at by lia; lia | reflexivity].
    + do 4 eexists. exists d, w', (Exit e). split; [reflexivity|]. split; [apply prefix_app_l, P|]. auto.
    + do 4 eexists. exists d, w', (Blocked f). split; [reflexivity|]. split; [apply prefix_app_l, P|]. auto.
Qed.

(** ** Whole functions *)
Definition read_body : list ins :=
  [BrIf 1 (Eqz (Get 2)); Set_ 5 (Load 4 4 (Get 1)); Set_ 6 (Call2 RtRead (Load 4 0 (Get 1)) (Get 5));
   Set_ 4 (Bin Add32 (Get 4) (Get 6)); BrIf 1 (Bin Ne32 (Get 6) (Get 5)); Set_ 1 (Bin Add32 (Get 1) (Const 8));
   Set_ 2 (Bin Sub32 (Get 2) (Const 1)); Br 0].
Lemma read_iter fd np : xfer_iter rd read_body 0 (fun iov n nw bl x => [fd; iov; n; np; nw; bl; x]).
Proof.
  unfold read_body. iter rt_read_loc.
  destruct (rd _ _ m p w) as [[m' w'] o]. cbn [unrt3].
  destruct o as [[c|]| | | | | |]; wstep; try reflexivity.
  destruct (c =? u32_at m (iov + 4)); wstep; reflexivity.
Qed.
Definition io_send_body : list ins :=
  [BrIf 1 (Eqz (Get 4)); Set_ 9 (Load 4 4 (Get 3)); Set_ 10 (Call2 RtWrite (Load 4 0 (Get 3)) (Get 9));
   Set_ 8 (Bin Add32 (Get 8) (Get 10)); BrIf 1 (Bin Ne32 (Get 10) (Get 9)); Set_ 3 (Bin Add32 (Get 3) (Const 8));
   Set_ 4 (Bin Sub32 (Get 4) (Const 1)); Br 0].
Lemma io_send_iter r rl nr ns fl fi : xfer_iter wr io_send_body 0 (fun iov n nw bl x => [r; rl; nr; iov; n; ns; fl; fi; nw; bl; x]).
Proof.
  unfold io_send_body. iter rt_write_loc.
  destruct (wr _ _ m p w) as [[m' w'] o]. cbn [unrt3].
  destruct o as [[c|]| | | | | |]; wstep; try reflexivity.
  destruct (c =? u32_at m (iov + 4)); wstep; reflexivity.
Qed.
Definition io_recv_body : list ins :=
  [BrIf 1 (Eqz (Get 1)); Set_ 9 (Load 4 4 (Get 0)); Set_ 10 (Call2 RtRead (Load 4 0 (Get 0)) (Get 9));
   Set_ 8 (Bin Add32 (Get 8) (Get 10)); BrIf 1 (Bin Ne32 (Get 10) (Get 9)); Set_ 0 (Bin Add32 (Get 0) (Const 8));
   Set_ 1 (Bin Sub32 (Get 1) (Const 1)); Br 0].
Lemma io_recv_iter nr s sl ns fl fi : xfer_iter rd io_recv_body 0 (fun iov n nw bl x => [iov; n; nr; s; sl; ns; fl; fi; nw; bl; x]).
Proof.
  unfold io_recv_body. iter rt_read_loc.
  destruct (rd _ _ m p w) as [[m' w'] o]. cbn [unrt3].
  destruct o as [[c|]| | | | | |]; wstep; try reflexivity.
  destruct (c =? u32_at m (iov + 4)); wstep; reflexivity.
Qed.

Lemma store_St n ea v m p l w : store n ea v (St m p l w) =
  if p * 65536 <? ea + Z.of_nat n then (St m p l w, Exit 105) else (St (put_bytes m ea (le n v)) p l w, Next None).
Proof. reflexivity. Qed.

Lemma fd_write_gate_spec k n s iov np :
  guest_ok s -> is_u32 iov -> is_u32 np -> (n <= k)%nat -> Z.of_nat n < 2 ^ 32 ->
  len (gather (mem s) (iovs (mem s) iov n)) < 2 ^ 32 ->
  let (s', o) := invoke k lib_fd_write [4; iov; Z.of_nat n; np] s in
  exists d, prefix_of d (gather (mem s) (iovs (mem s) iov n)) /\ sends (wd s) (wd s') d /\ pages s' = pages s /\
    match o with
    | Ret (Some r) => mem s' = put_bytes (mem s) np (le 4 (len d)) /\ r = (if len d =? 0 then EAGAIN_ else ESUCCESS) /\
                      (all_accepted (wd s) -> d = gather (mem s) (iovs (mem s) iov n))
    | Exit e => mem s' = mem s /\ (e = 105 \/ e = ERR_RT_WRITE)
    | Blocked f => mem s' = mem s /\ f = RtWrite
    | _ => False
    end.
Proof.
  intros (Hm & Hp & _) Hi Hnp Hk Hn Hl. destruct s as [m p l w]. cbn [mem pages wd] in *.
  unfold lib_fd_write. winit. wstep. cbn [mem wd pages Z.leb Z.compare orb Pos.compare Pos.compare_cont]. wstep.
  change (4 =? 4) with true. wstep. fold write_body.
  destruct (send_loop _ _ _ (write_iter 4 np) n k m p w iov 0 0 0) as (i' & n' & nw' & bl' & x' & d & w' & o & E & P & S1 & C); auto; [lia|].
  rewrite E.
  destruct o as [v|b|v|e|f| |]; try contradiction; wstep.
  - destruct C as (-> & -> & C & _). wstep. rewrite Z.add_0_r, store_St. change (0 + len d) with (len d).
    destruct (_ <? _); wstep.
    + exists d. cbn [mem pages wd]. auto 10.
    + destruct (len d =? 0) eqn:E0; wstep; exists d; cbn [mem pages wd]; rewrite E0; auto 10.
  - exists d. cbn [mem pages wd]. auto 10.
  - exists d. cbn [mem pages wd]. auto 10.
Qed.

Lemma fd_write_debug_spec k n s fd iov np : fd = 1 \/ fd = 2 ->
  guest_ok s -> debug_works (wd s) -> is_u32 iov -> is_u32 np -> (n <= k)%nat -> Z.of_nat n < 2 ^ 32 ->
  len (gather (mem s) (iovs (mem s) iov n)) < 2 ^ 32 ->
  let (s', o) := invoke k lib_fd_write [fd; iov; Z.of_nat n; np] s in
  exists d, prefix_of d (gather (mem s) (iovs (mem s) iov n)) /\ debugs (wd s) (wd s') d /\ pages s' = pages s /\
    match o with
    | Ret (Some r) => mem s' = put_bytes (mem s) np (le 4 (len d)) /\ r = (if len d =? 0 then EAGAIN_ else ESUCCESS) /\
                      d = gather (mem s) (iovs (mem s) iov n)
    | Exit e => mem s' = mem s /\ (e = 105 \/ e = ERR_RT_DEBUG)
    | Blocked f => mem s' = mem s /\ f = RtDebug
    | _ => False
    end.
Proof.
  intros Hfd (Hm & Hp & _) DW Hi Hnp Hk Hn Hl. destruct s as [m p l w]. cbn [mem pages wd] in *.
  assert (F : (fd =? 3) || (5 <=? fd) = false /\ (fd =? 0) = false /\ (fd =? 4) = false).
  { destruct Hfd as [-> | ->]; repeat split; reflexivity. }
  destruct F as (F1 & F2 & F3).
  unfold lib_fd_write. winit. wstep. rewrite F1. wstep. cbn [mem wd pages]. rewrite F2. wstep. rewrite F3. wstep. fold debug_body.
  destruct (debug_loop fd np n k m p w iov 0 0 0) as (i' & n' & nw' & bl' & d & w' & o & E & P & S1 & C); auto; [lia|].
  rewrite E.
  destruct o as [v|b|v|e|f| |]; try contradiction; wstep.
  - destruct C as (-> & -> & C). wstep. rewrite Z.add_0_r, store_St. change (0 + len d) with (len d).
    destruct (_ <? _); wstep.
    + exists d. cbn [mem pages wd]. auto 10.
    + destruct (len d =? 0) eqn:E0; wstep; exists d; cbn [mem pages wd]; rewrite E0; auto 10.
  - exists d. cbn [mem pages wd]. auto 10.
  - exists d. cbn [mem pages wd]. auto 10.
Qed.

Lemma fd_read_gate_spec k n s iov np :
  guest_ok s -> is_u32 iov -> is_u32 np -> (n <= k)%nat -> Z.of_nat n < 2 ^ 32 ->
  capacity (iovs (mem s) iov n) < 2 ^ 32 ->
  Forall (fun v => apart (fst v) (snd v) iov (8 * Z.of_nat n)) (iovs (mem s) iov n) ->
  let (s', o) := invoke k lib_fd_read [4; iov; Z.of_nat n; np] s in
  exists d, len d <= capacity (iovs (mem s) iov n) /\ receives (wd s) (wd s') d /\ pages s' = pages s /\
    match o with
    | Ret (Some r) => mem s' = put_bytes (scatter (mem s) (iovs (mem s) iov n) d) np (le 4 (len d)) /\
                      r = (if len d =? 0 then EAGAIN_ else ESUCCESS) /\
                      (all_available (wd s) -> len d = capacity (iovs (mem s) iov n) \/ w_input (wd s') = [])
    | Exit e => mem s' = scatter (mem s) (iovs (mem s) iov n) d /\ (e = 105 \/ e = ERR_RT_READ)
    | Blocked f => mem s' = scatter (mem s) (iovs (mem s) iov n) d /\ f = RtRead
    | _ => False
    end.
Proof.
  intros (Hm & Hp & Hin & _) Hi Hnp Hk Hn Hl Hap. destruct s as [m p l w]. cbn [mem pages wd] in *.
  unfold lib_fd_read. winit. wstep. cbn [mem wd pages Z.leb Z.compare orb Pos.compare Pos.compare_cont]. wstep.
  change (4 =? 4) with true. wstep. fold read_body.
  destruct (recv_loop _ _ _ (read_iter 4 np) n k m p w iov 0 0 0) as (i' & n' & nw' & bl' & x' & d & w' & o & E & P & S1 & C); auto; [lia|].
  rewrite E.
  destruct o as [v|b|v|e|f| |]; try contradiction; wstep.
  - destruct C as (-> & -> & C). wstep. rewrite Z.add_0_r, store_St. change (0 + len d) with (len d).
    destruct (_ <? _); wstep.
    + exists d. cbn [mem pages wd]. auto 10.
    + destruct (len d =? 0) eqn:E0; wstep; exists d; cbn [mem pages wd]; rewrite E0; auto 10.
  - exists d. cbn [mem pages wd]. auto 10.
  - exists d. cbn [mem pages wd]. auto 10.
Qed.

Lemma rt_poll_loc answers a b : forall m p l w, rt_poll answers a b (St m p l w) = unrt3 p l (rt3 (rt_poll answers a b (St m p [] w))).
Proof.
  induction answers as [|x rest IH]; intros; cbn [rt_poll]; [reflexivity|].
  unfold set_wd. cbn [mem pages loc wd].
  destruct x; [|destruct (_ || _); reflexivity].
  destruct (_ && _); [apply IH|]. destruct (negb _); [reflexivity|]. destruct (negb _); [reflexivity|]. destruct (negb _); reflexivity.
Qed.
Lemma rt_poll_cases answers a b : forall m p l w, exists w' o, rt_poll answers a b (St m p l w) = (St m p l w', o) /\
  (exists rest, w' = World (w_input w) (w_reads w) (w_writes w) (w_debugs w) rest (w_times w) (w_random w) (w_resumes w) (w_sent w) (w_debug w) \/ w' = w) /\
  match o with
  | Next (Some f) => True
  | Exit e => e = ERR_RT_POLL
  | Blocked f => f = RtPoll
  | _ => False
  end.
Proof.
  induction answers as [|x rest IH]; intros; cbn [rt_poll].
  - exists w, (Blocked RtPoll). split; [reflexivity|]. split; [exists []; right; reflexivity | reflexivity].
  - unfold set_wd. cbn [mem pages loc wd]. set (w1 := World _ _ _ _ rest _ _ _ _ _).
    destruct x.
    + destruct (_ && _).
      { destruct (IH m p l w1) as (w' & o & E & (r2 & C1) & C2). exists w', o. split; [exact E|]. split; [|exact C2].
        exists (w_polls w'). left. destruct C1 as [-> | ->]; reflexivity. }
      assert (X : exists rest0, w1 = World (w_input w) (w_reads w) (w_writes w) (w_debugs w) rest0 (w_times w) (w_random w) (w_resumes w) (w_sent w) (w_debug w) \/ w1 = w)
        by (exists rest; left; reflexivity).
      destruct (negb _); [do 2 eexists; split; [reflexivity|]; split; [exact X | exact I]|].
      destruct (negb _); [do 2 eexists; split; [reflexivity|]; split; [exact X | reflexivity]|].
      destruct (negb _); [do 2 eexists; split; [reflexivity|]; split; [exact X | reflexivity]|].
      do 2 eexists; split; [reflexivity|]; split; [exact X | exact I].
    + assert (X : exists rest0, w1 = World (w_input w) (w_reads w) (w_writes w) (w_debugs w) rest0 (w_times w) (w_random w) (w_resumes w) (w_sent w) (w_debug w) \/ w1 = w)
        by (exists rest; left; reflexivity).
      destruct (_ || _); do 2 eexists; (split; [reflexivity|]; split; [exact X | try reflexivity; exact I]).
Qed.


Lemma io_tail k recv rn nrecv a b c d0 fi x0 bl0 x m p w :
  (rn <= k)%nat -> Z.of_nat rn < 2 ^ 32 -> (forall a, 0 <= m a < 256) -> input_ok w -> 0 <= p < 65536 -> is_u32 recv ->
  capacity (iovs m recv rn) < 2 ^ 32 ->
  Forall (fun v => apart (fst v) (snd v) recv (8 * Z.of_nat rn)) (iovs m recv rn) ->
  exists s' o g, 
    exec (eval k) [Set_ 8 (Const 0); If (Bin And32 (Get 7) (Const 1)) [Block [Loop io_recv_body]] [];
      If (Get 2) [Store 4 0 (Get 2) (Get 8)] []; Block [BrIf 0 (Const 1); Call0 RtNop]]
      (St m p [recv; Z.of_nat rn; nrecv; a; b; c; d0; fi; x0; bl0; x] w) = (s', o) /\ pages s' = p /\
    len g <= capacity (iovs m recv rn) /\ receives w (wd s') g /\ (Z.land fi 1 = 0 -> g = []) /\
    match o with
    | Next v => v = None /\
                mem s' = (if nrecv =? 0 then scatter m (iovs m recv rn) g else put_bytes (scatter m (iovs m recv rn) g) nrecv (le 4 (len g))) /\
                (Z.land fi 1 <> 0 -> all_available w -> len g = capacity (iovs m recv rn) \/ w_input (wd s') = [])
    | Exit e => mem s' = scatter m (iovs m recv rn) g /\ (e = 105 \/ e = ERR_RT_READ)
    | Blocked f => mem s' = scatter m (iovs m recv rn) g /\ f = RtRead
    | _ => False
    end.
Proof.
  intros Hk Hn Hm Hin Hp Hi Hl Hap. wstep.
  assert (CN : 0 <= capacity (iovs m recv rn)) by (apply capacity_nonneg, iovs_ok, Hm).
  destruct (Z.eqb_spec (Z.land fi 1) 0) as [F|F]; wstep.
  - destruct (nrecv =? 0) eqn:EN; wstep.
    + do 2 eexists. exists []. split; [reflexivity|]. cbn [mem pages wd]. rewrite scatter_nil. split; [reflexivity|].
      split; [unfold len; cbn [length]; lia|]. split; [apply receives_refl|]. split; [reflexivity|]. split; [reflexivity|]. split; [reflexivity|]. tauto.
    + rewrite Z.add_0_r, store_St. destruct (_ <? _); wstep.
      * do 2 eexists. exists []. split; [reflexivity|]. cbn [mem pages wd]. rewrite scatter_nil. split; [reflexivity|].
        split; [unfold len; cbn [length]; lia|]. split; [apply receives_refl|]. split; [reflexivity|]. split; [reflexivity | left; reflexivity].
      * do 2 eexists. exists []. split; [reflexivity|]. cbn [mem pages wd]. rewrite scatter_nil. split; [reflexivity|].
        split; [unfold len; cbn [length]; lia|]. split; [apply receives_refl|]. split; [reflexivity|]. split; [reflexivity|]. split; [reflexivity|]. tauto.
  - destruct (recv_loop _ _ _ (io_recv_iter nrecv a b c d0 fi) rn k m p w recv 0 bl0 x) as (i' & n' & nw' & bl' & x' & g & w' & o & E & P & S1 & C); auto; [lia|].
    rewrite E.
    destruct o as [v|y|v|e|f| |]; try contradiction; wstep.
    + destruct C as (-> & -> & C). wstep. change (0 + len g) with (len g).
      destruct (nrecv =? 0) eqn:EN; wstep.
      * do 2 eexists. exists g. split; [reflexivity|]. cbn [mem pages wd]. split; [reflexivity|]. split; [exact P|]. split; [exact S1|]. split; [tauto|].
        split; [reflexivity|]. split; [reflexivity|]. auto.
      * rewrite Z.add_0_r, store_St. destruct (_ <? _); wstep.
        -- do 2 eexists. exists g. split; [reflexivity|]. cbn [mem pages wd]. split; [reflexivity|]. split; [exact P|]. split; [exact S1|]. split; [tauto|].
           split; [reflexivity | left; reflexivity].
        -- do 2 eexists. exists g. split; [reflexivity|]. cbn [mem pages wd]. split; [reflexivity|]. split; [exact P|]. split; [exact S1|]. split; [tauto|].
           split; [reflexivity|]. split; [reflexivity|]. auto.
    + do 2 eexists. exists g. split; [reflexivity|]. cbn [mem pages wd]. split; [reflexivity|]. split; [exact P|]. split; [exact S1|]. split; [tauto|]. auto.
    + do 2 eexists. exists g. split; [reflexivity|]. cbn [mem pages wd]. split; [reflexivity|]. split; [exact P|]. split; [exact S1|]. split; [tauto|]. auto.
Qed.

Lemma le4_ok v : Forall (fun b => 0 <= b < 256) (le 4 v).
Proof. cbn [le]. repeat constructor; apply Z.mod_pos_bound; lia. Qed.
Lemma len_le4 v : len (le 4 v) = 4. Proof. reflexivity. Qed.


Lemma io_spec k rn sn s recv nrecv send nsent flags :
  guest_ok s -> is_u32 recv -> is_u32 nrecv -> is_u32 send -> is_u32 nsent ->
  (rn <= k)%nat -> (sn <= k)%nat -> Z.of_nat rn < 2 ^ 32 -> Z.of_nat sn < 2 ^ 32 ->
  let sv := iovs (mem s) send sn in
  let rv := iovs (mem s) recv rn in
  len (gather (mem s) sv) < 2 ^ 32 -> capacity rv < 2 ^ 32 ->
  Forall (fun v => apart (fst v) (snd v) recv (8 * Z.of_nat rn)) rv ->
  apart nsent 4 recv (8 * Z.of_nat rn) ->
  let (s1, o1) := after_wait flags (Z.of_nat sn) s in
  let (s', o) := invoke k lib_io [recv; Z.of_nat rn; nrecv; send; Z.of_nat sn; nsent; flags] s in
  match o1 with
  | Next (Some ready) =>
      exists d g w, prefix_of d (gather (mem s) sv) /\ len g <= capacity rv /\ sends (wd s1) w d /\ receives w (wd s') g /\
        (Z.land ready POLLOUT = 0 -> d = []) /\ (Z.land ready POLLIN = 0 -> g = []) /\ pages s' = pages s /\
        match o with
        | Ret v => v = None /\ mem s' = with_count (scatter (with_count (mem s) nsent d) rv g) nrecv g /\
                   (Z.land ready POLLOUT <> 0 -> all_accepted (wd s) -> d = gather (mem s) sv) /\
                   (Z.land ready POLLIN <> 0 -> all_available (wd s) -> len g = capacity rv \/ w_input (wd s') = [])
        | Exit e => (g = [] /\ mem s' = mem s \/ mem s' = scatter (with_count (mem s) nsent d) rv g) /\ (e = 105 \/ e = ERR_RT_WRITE \/ e = ERR_RT_READ)
        | Blocked f => (g = [] /\ mem s' = mem s \/ mem s' = scatter (with_count (mem s) nsent d) rv g) /\ (f = RtWrite \/ f = RtRead)
        | _ => False
        end
  | _ => o = o1 /\ wd s' = wd s1 /\ mem s' = mem s /\ pages s' = pages s /\ (o = Exit ERR_RT_POLL \/ o = Blocked RtPoll)
  end.
Proof.
  intros (Hm & Hp & Hin & _) Hr Hnr Hs Hns Hk1 Hk2 Hrn Hsn sv rv Hg Hc Hap Hap2. destruct s as [m p l w]. cbn [mem pages wd] in *.
  unfold lib_io. winit. cbn [mem pages wd]. wstep. cbn [mem pages wd].
  assert (PART2 : forall ready wp, input_ok wp -> w_writes wp = w_writes w -> w_reads wp = w_reads w ->
    let (s', o) := match exec (eval k)
       [Block [BrIf 0 (Const 1); Call0 RtNop]; If (Bin And32 (Get 7) (Const 4)) [Block [Loop io_send_body]] [];
        If (Get 5) [Store 4 0 (Get 5) (Get 8)] []; Block [BrIf 0 (Const 1); Call0 RtNop];
        Set_ 8 (Const 0); If (Bin And32 (Get 7) (Const 1)) [Block [Loop io_recv_body]] [];
        If (Get 2) [Store 4 0 (Get 2) (Get 8)] []; Block [BrIf 0 (Const 1); Call0 RtNop]]
       (St m p [recv; Z.of_nat rn; nrecv; send; Z.of_nat sn; nsent; flags; ready; 0; 0; 0] wp) with
       | (s', Next v) => (s', Ret v) | (s', Brk O) => (s', Ret None) | r => r end in
      exists d g w2, prefix_of d (gather m sv) /\ len g <= capacity rv /\ sends wp w2 d /\ receives w2 (wd s') g /\
        (Z.land ready POLLOUT = 0 -> d = []) /\ (Z.land ready POLLIN = 0 -> g = []) /\ pages s' = p /\
        match o with
        | Ret v => v = None /\ mem s' = with_count (scatter (with_count m nsent d) rv g) nrecv g /\
                   (Z.land ready POLLOUT <> 0 -> all_accepted w -> d = gather m sv) /\
                   (Z.land ready POLLIN <> 0 -> all_available w -> len g = capacity rv \/ w_input (wd s') = [])
        | Exit e => (g = [] /\ mem s' = m \/ mem s' = scatter (with_count m nsent d) rv g) /\ (e = 105 \/ e = ERR_RT_WRITE \/ e = ERR_RT_READ)
        | Blocked f => (g = [] /\ mem s' = m \/ mem s' = scatter (with_count m nsent d) rv g) /\ (f = RtWrite \/ f = RtRead)
        | _ => False
        end).
  { intros ready wp Hinp EW ER.
    assert (CN : 0 <= capacity rv) by (apply capacity_nonneg, iovs_ok, Hm).
    rewrite exec_cons, eval_reserved, thn_Next, exec_cons.
    assert (TAIL : forall iov' n' d x0 bl0 x w2, prefix_of d (gather m sv) -> sends wp w2 d ->
      (Z.land ready POLLOUT = 0 -> d = []) -> x0 = len d -> (Z.land ready POLLOUT <> 0 -> all_accepted w -> d = gather m sv) ->
      let (s', o) := match exec (eval k)
       [If (Get 5) [Store 4 0 (Get 5) (Get 8)] []; Block [BrIf 0 (Const 1); Call0 RtNop];
        Set_ 8 (Const 0); If (Bin And32 (Get 7) (Const 1)) [Block [Loop io_recv_body]] [];
        If (Get 2) [Store 4 0 (Get 2) (Get 8)] []; Block [BrIf 0 (Const 1); Call0 RtNop]]
       (St m p [recv; Z.of_nat rn; nrecv; iov'; n'; nsent; flags; ready; x0; bl0; x] w2) with
       | (s', Next v) => (s', Ret v) | (s', Brk O) => (s', Ret None) | r => r end in
      exists d g w2, prefix_of d (gather m sv) /\ len g <= capacity rv /\ sends wp w2 d /\ receives w2 (wd s') g /\
        (Z.land ready POLLOUT = 0 -> d = []) /\ (Z.land ready POLLIN = 0 -> g = []) /\ pages s' = p /\
        match o with
        | Ret v => v = None /\ mem s' = with_count (scatter (with_count m nsent d) rv g) nrecv g /\
                   (Z.land ready POLLOUT <> 0 -> all_accepted w -> d = gather m sv) /\
                   (Z.land ready POLLIN <> 0 -> all_available w -> len g = capacity rv \/ w_input (wd s') = [])
        | Exit e => (g = [] /\ mem s' = m \/ mem s' = scatter (with_count m nsent d) rv g) /\ (e = 105 \/ e = ERR_RT_WRITE \/ e = ERR_RT_READ)
        | Blocked f => (g = [] /\ mem s' = m \/ mem s' = scatter (with_count m nsent d) rv g) /\ (f = RtWrite \/ f = RtRead)
        | _ => False
        end).
    { intros iov' n' d x0 bl0 x w2 P S1 D0 -> AA.
      assert (ER2 : w_reads w2 = w_reads w) by (destruct S1 as [? ->]; exact ER).
      assert (IN2 : input_ok w2) by (destruct S1 as [? ->]; exact Hinp).
      set (m1 := with_count m nsent d).
      assert (Hm1 : forall a, 0 <= m1 a < 256).
      { unfold m1, with_count. destruct (nsent =? 0); [exact Hm|]. apply put_bytes_ok; [exact Hm | apply le4_ok]. }
      assert (EI : iovs m1 recv rn = rv).
      { unfold rv. apply iovs_same. intros y Hy. unfold m1, with_count. destruct (nsent =? 0); [reflexivity|].
        apply put_bytes_other. rewrite len_le4. unfold apart in Hap2. lia. }
      destruct (io_tail k recv rn nrecv iov' n' nsent flags ready (len d) bl0 x m1 p w2) as (s' & o & g & E & Q1 & Q2 & Q3 & Q4 & Q5);
        try rewrite EI; auto.
      rewrite EI in *.
      assert (AV : all_available w -> all_available w2) by (unfold all_available; rewrite ER2; auto).
      assert (ST : forall r : st * out, r = exec (eval k)
         [If (Get 5) [Store 4 0 (Get 5) (Get 8)] []; Block [BrIf 0 (Const 1); Call0 RtNop];
          Set_ 8 (Const 0); If (Bin And32 (Get 7) (Const 1)) [Block [Loop io_recv_body]] [];
          If (Get 2) [Store 4 0 (Get 2) (Get 8)] []; Block [BrIf 0 (Const 1); Call0 RtNop]]
         (St m p [recv; Z.of_nat rn; nrecv; iov'; n'; nsent; flags; ready; len d; bl0; x] w2) ->
         r = (s', o) \/ r = (St m p [recv; Z.of_nat rn; nrecv; iov'; n'; nsent; flags; ready; len d; bl0; x] w2, Exit 105)).
      { intros r ->. rewrite exec_cons, eval_If, eval_Get. cbn [nth_error loc]. rewrite andv_Next.
        unfold m1, with_count in E. destruct (nsent =? 0) eqn:EN.
        - rewrite exec_nil, leave_Next, thn_Next, exec_cons, eval_reserved, thn_Next. left. exact E.
        - rewrite exec_one, eval_Store, !eval_Get. cbn [nth_error loc]. rewrite andv_Next. cbn beta. rewrite eval_Get. cbn [nth_error loc]. rewrite andv_Next.
          rewrite Z.add_0_r, store_St. destruct (_ <? _).
          + right. rewrite leave_Exit, thn_Exit. reflexivity.
          + left. rewrite leave_Next, thn_Next, exec_cons, eval_reserved, thn_Next. exact E. }
      destruct (ST _ eq_refl) as [-> | ->].
      - destruct o as [v|y|v|e|f| |]; try contradiction; exists d, g, w2.
        + destruct Q5 as (-> & Q5 & Q6). split; [exact P|]. split; [exact Q2|]. split; [exact S1|]. split; [exact Q3|]. split; [exact D0|].
          split; [exact Q4|]. split; [exact Q1|]. split; [reflexivity|]. split; [|split; auto].
          unfold with_count at 1. exact Q5.
        + split; [exact P|]. split; [exact Q2|]. split; [exact S1|]. split; [exact Q3|]. split; [exact D0|]. split; [exact Q4|]. split; [exact Q1|]. tauto.
        + split; [exact P|]. split; [exact Q2|]. split; [exact S1|]. split; [exact Q3|]. split; [exact D0|]. split; [exact Q4|]. split; [exact Q1|]. tauto.
      - exists d, [], w2. split; [exact P|]. split; [unfold len; cbn [length]; lia|]. split; [exact S1|]. split; [apply receives_refl|]. split; [exact D0|].
        split; [reflexivity|]. split; [reflexivity|]. cbn [mem]. auto. }
    rewrite eval_If, eval_Bin, eval_Get. cbn [nth_error loc]. rewrite andv_Next, eval_Const, andv_Next, andv_Next. cbn [binop].
    change (Z.land ready 4) with (Z.land ready POLLOUT). destruct (Z.eqb_spec (Z.land ready POLLOUT) 0) as [F|F].
    - rewrite exec_nil, leave_Next, thn_Next. apply (TAIL _ _ []); [apply prefix_nil | apply sends_refl | auto | reflexivity | tauto].
    - rewrite exec_one, eval_Block, exec_one.
      destruct (send_loop _ _ _ (io_send_iter recv (Z.of_nat rn) nrecv nsent flags ready) sn k m p wp send 0 0 0) as (i' & n' & nw' & bl' & x' & d & w' & o & E & P & S1 & C); auto; [lia|].
      rewrite E. destruct o as [v|y|v|e|f| |]; try contradiction.
      + destruct C as (-> & C1 & C2 & _). rewrite leave_Brk0, leave_Next, thn_Next.
        apply (TAIL _ _ d); [exact P | exact S1 | tauto | lia |]. intros _ A. apply C2. unfold all_accepted. rewrite EW. exact A.
      + rewrite !leave_Exit, thn_Exit. exists d, [], w'. cbn [mem pages wd]. split; [exact P|]. split; [unfold len; cbn [length]; lia|]. split; [exact S1|].
        split; [apply receives_refl|]. split; [tauto|]. split; [reflexivity|]. split; [reflexivity|]. split; [auto|]. tauto.
      + rewrite !leave_Blocked, thn_Blocked. exists d, [], w'. cbn [mem pages wd]. split; [exact P|]. split; [unfold len; cbn [length]; lia|]. split; [exact S1|].
        split; [apply receives_refl|]. split; [tauto|]. split; [reflexivity|]. split; [reflexivity|]. split; [auto|]. tauto. }
  unfold after_wait. cbn [wd].
  destruct (Z.land flags 1 =? 0).
  - rewrite leave_Next, thn_Next. fold io_send_body io_recv_body. specialize (PART2 5 w Hin eq_refl eq_refl). cbn [wd].
    exact PART2.
  - assert (SEL : forall s0, leave (if Z.of_nat sn =? 0 then (s0, Next (Some 0)) else (s0, Next (Some 4)))
       = (s0, Next (Some (if Z.of_nat sn =? 0 then 0 else POLLOUT)))) by (intros; destruct (_ =? 0); reflexivity).
    rewrite SEL, andv_Next. cbn [call_rt wd]. change 1 with POLLIN at 1.
    rewrite (rt_poll_loc _ _ _ m p l), (rt_poll_loc _ _ _ m p [recv; _; _; _; _; _; _; _; _; _; _]).
    destruct (rt_poll_cases (w_polls w) POLLIN (if Z.of_nat sn =? 0 then 0 else POLLOUT) m p [] w) as (wp & o & E & (rest & CW) & C).
    rewrite E. unfold rt3, unrt3. cbn [fst snd mem wd].
    destruct o as [[ready|]|y|v|e|f| |]; try contradiction.
    + rewrite andv_Next. unfold setl. cbn [set_loc mem pages loc wd upd]. rewrite leave_Next, thn_Next. fold io_send_body io_recv_body.
      assert (X : input_ok wp /\ w_writes wp = w_writes w /\ w_reads wp = w_reads w) by (destruct CW as [-> | ->]; auto).
      destruct X as (X1 & X2 & X3). exact (PART2 ready wp X1 X2 X3).
    + rewrite andv_Exit, leave_Exit, thn_Exit. cbn [mem pages wd]. subst e. auto 10.
    + rewrite andv_Blocked, leave_Blocked, thn_Blocked. cbn [mem pages wd]. subst f. auto 10.
Qed.
