(* GuestMiscProofs.v: proofs about random_get and the functions that stop the program. *)
From Verif Require Import GuestLibSpec GuestLib BaseLemmas GuestLibProofs GuestIoProofs GuestPollProofs.

Definition random_body : list ins := match lib_random_get with Func _ _ (_ :: Block [Loop b] :: _) => b | _ => [] end.

Lemma draws_refl w : draws w w [].
Proof. split; [reflexivity|]. destruct w; reflexivity. Qed.

Lemma s32_byte v : 0 <= v < 256 -> s32 v = v.
Proof. intros. unfold s32. rewrite Z.mod_small by lia. lia. Qed.

Lemma random_loop p : forall k n m w buf v0,
  (forall x, 0 <= m x < 256) -> Forall (fun b => 0 <= b < 256) (w_random w) -> Forall (Forall (fun b => 0 <= b < 256)) (w_resumes w) ->
  0 <= p < 65536 -> 0 <= buf -> buf + Z.of_nat n <= p * 65536 -> (n + length (w_resumes w) <= k)%nat ->
  exists buf' n' v d w' o, eval k (Loop random_body) (St m p [buf; Z.of_nat n; 0; v0] w) = (St (put_bytes m buf d) p [buf'; n'; 0; v] w', o) /\
    draws w w' d /\
    match o with
    | Brk b => b = 0%nat /\ length d = n
    | Exit e => e = 127 /\ (length d < n)%nat /\ supply w' = []
    | _ => False
    end.
Proof.
  induction k; intros n m w buf v0 Hm HR HS Hp Hb Hl Hk; rewrite eval_Loop; unfold random_body at 1; unfold lib_random_get; wstep.
  - assert (n = 0%nat) as -> by lia. cbn [Z.of_nat Z.eqb]. wstep. do 3 eexists. exists [], w, (Brk 0). cbn [put_bytes].
    split; [reflexivity|]. split; [apply draws_refl|]. auto.
  - destruct (Z.eqb_spec (Z.of_nat n) 0) as [E0|E0]; wstep.
    { assert (n = 0%nat) as -> by lia. do 3 eexists. exists [], w, (Brk 0). cbn [put_bytes].
      split; [reflexivity|]. split; [apply draws_refl|]. auto. }
    cbn [call_rt]. unfold rt_random. cbn [wd]. unfold set_wd. cbn [mem pages loc].
    destruct (w_random w) as [|b rest] eqn:ER; wstep.
    + change (s32 0 <=? s32 (2 ^ 32 - 1)) with false. wstep. cbn [call_rt]. unfold rt_stop. cbn [wd].
      destruct (w_resumes w) as [|r rs] eqn:ES; wstep.
      * do 3 eexists. exists [], w, (Exit 127). cbn [put_bytes]. split; [reflexivity|]. split; [apply draws_refl|]. split; [reflexivity|]. cbn [length]. split; [lia|]. unfold supply. rewrite ER, ES. reflexivity.
      * unfold set_wd. cbn [mem pages loc]. wstep. cbn [length] in Hk. inversion HS as [|? ? S1 S2]; subst.
        set (w1 := World _ _ _ _ _ _ r rs _ _).
        destruct (IHk n m w1 buf (2 ^ 32 - 1)) as (b' & n' & v & d & w' & o & E & (D1 & D2) & C); auto; [cbn [w1 w_resumes]; lia|].
        fold random_body. rewrite E. do 3 eexists. exists d, w', o. split; [reflexivity|]. split; [|exact C].
        split; [unfold supply in D1 |- *; rewrite ER, ES; cbn [app concat]; exact D1 | exact D2].
    + inversion HR as [|? ? R1 R2]; subst. rewrite (s32_byte b) by lia. change (s32 0) with 0.
      rewrite (proj2 (Z.leb_le 0 b)) by lia. wstep. rewrite store_in by lia. wstep.
      rewrite (u32_small (buf + 1)) by (unfold is_u32; lia). rewrite (u32_small (Z.of_nat n - 1)) by (unfold is_u32; lia).
      destruct n as [|n]; [lia|]. replace (Z.of_nat (S n) - 1) with (Z.of_nat n) by lia.
      set (w1 := World _ _ _ _ _ _ rest _ _ _).
      destruct (IHk n (put_bytes m (buf + 0) (le 1 b)) w1 (buf + 1) b) as (b' & n' & v & d & w' & o & E & (D1 & D2) & C); auto; try lia.
      { apply put_bytes_ok; [exact Hm | apply le_ok]. }
      { cbn [w1 w_resumes]. lia. }
      fold random_body. rewrite E. do 3 eexists. exists (b :: d), w', o. split.
      { do 2 f_equal. rewrite Z.add_0_r. cbn [le put_bytes]. rewrite Z.mod_small by lia. reflexivity. }
      split.
      { split; [unfold supply in D1 |- *; rewrite ER; cbn [app]; cbn [w1 w_random w_resumes] in D1; rewrite D1; reflexivity | exact D2]. }
      destruct o; auto; cbn [length]; [destruct C; split; [assumption|lia] | destruct C as (? & ? & ?); split; [assumption|]; split; [lia|assumption]].
Qed.

(** ** Loops that stop the program *)
Lemma stopped_loop x : forall k m p l w, (length (w_resumes w) <= k)%nat -> (x < length l)%nat ->
  exists s', eval k (Loop [Set_ x (Call1 RtStop (Const 127)); If (Bin Eq64 (Get x) (Const 0)) [Br 1] []]) (St m p l w) = (s', Exit 127) /\
  forall l0, stopped (St m p l0 w) s'.
Proof.
  assert (NU : forall l x v, (x < length l)%nat -> nth_error (upd x v l) x = Some v).
  { clear. induction l; intros x v; cbn [length]; [lia|]. destruct x; cbn [upd nth_error]; [reflexivity|]. intros. apply IHl. lia. }
  assert (LU : forall l x v, length (upd x v l) = length l).
  { clear. induction l; intros [|x] v; cbn [upd length]; auto. }
  induction k; intros m p l w Hk Hx; rewrite eval_Loop, exec_cons, eval_Set, eval_Call1, eval_Const, andv_Next; cbn [call_rt]; unfold rt_stop; cbn [wd].
  - destruct (w_resumes w) as [|r rs] eqn:E; [|cbn [length] in Hk; lia]. wstep. eexists. split; [reflexivity|].
    intros l0. unfold stopped. cbn [mem pages wd]. split; [reflexivity|]. split; [reflexivity|]. split; [exact E|]. exists (w_random w). destruct w; cbn in *; subst; reflexivity.
  - destruct (w_resumes w) as [|r rs] eqn:E.
    + wstep. eexists. split; [reflexivity|].
      intros l0. unfold stopped. cbn [mem pages wd]. split; [reflexivity|]. split; [reflexivity|]. split; [exact E|]. exists (w_random w). destruct w; cbn in *; subst; reflexivity.
    + unfold set_wd. cbn [mem pages loc]. rewrite andv_Next, setl_St, thn_Next. rewrite exec_one, eval_If, eval_Bin, eval_Get. cbn [loc].
      rewrite NU by exact Hx. rewrite andv_Next. rewrite eval_Const, andv_Next, andv_Next. cbn [binop]. change (0 =? 0) with true. cbn [bool_z].
      change (1 =? 0) with false. cbv iota. rewrite exec_one, eval_Br, leave_BrkS.
      set (w1 := World _ _ _ _ _ _ r rs _ _).
      destruct (IHk m p (upd x 0 l) w1) as (s' & E2 & ST); [cbn [w1 w_resumes]; cbn [length] in Hk; lia | rewrite LU; exact Hx |].
      exists s'. split; [exact E2|]. intros l0. destruct (ST l0) as (A & B & C & q & D). split; [exact A|]. split; [exact B|]. split; [exact C|].
      exists q. cbn [wd] in *. rewrite D. reflexivity.
Qed.

Lemma exit_loop : forall k m p w st0, (length (w_resumes w) <= k)%nat ->
  exists s', eval k (Loop [Drop (Call1 RtStop (Get 0)); Br 0]) (St m p [st0] w) = (s', Exit st0) /\ forall l0, stopped (St m p l0 w) s'.
Proof.
  induction k; intros m p w st0 Hk; rewrite eval_Loop; wstep; cbn [call_rt]; unfold rt_stop; cbn [wd].
  - destruct (w_resumes w) as [|r rs] eqn:E; [|cbn [length] in Hk; lia]. wstep. eexists. split; [reflexivity|].
    intros l0. unfold stopped. cbn [mem pages wd]. split; [reflexivity|]. split; [reflexivity|]. split; [exact E|]. exists (w_random w). destruct w; cbn in *; subst; reflexivity.
  - destruct (w_resumes w) as [|r rs] eqn:E.
    + wstep. eexists. split; [reflexivity|].
      intros l0. unfold stopped. cbn [mem pages wd]. split; [reflexivity|]. split; [reflexivity|]. split; [exact E|]. exists (w_random w). destruct w; cbn in *; subst; reflexivity.
    + unfold set_wd. cbn [mem pages loc]. wstep. set (w1 := World _ _ _ _ _ _ r rs _ _).
      destruct (IHk m p w1 st0) as (s' & E2 & ST); [cbn [w1 w_resumes]; cbn [length] in Hk; lia|].
      exists s'. split; [exact E2|]. intros l0. destruct (ST l0) as (A & B & C & q & D). split; [exact A|]. split; [exact B|]. split; [exact C|].
      exists q. cbn [wd] in *. rewrite D. reflexivity.
Qed.
