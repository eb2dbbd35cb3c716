(* GuestStopProps.v: exiting, operations that are not supported, and the descriptor table of the guest library
   (C94-C96). *)
From Verif Require Import GuestLibSpec GuestLib BaseLemmas GuestLibProofs GuestIoProofs GuestPollProofs GuestMiscProofs GuestIoProps GuestLibProps.

(** ** C94: proc_exit *)

(* The process exits with 2 (success) or 3 (failure), and a program that is resumed after that does nothing but exits
   again. *)
Theorem proc_exit_status k s status : (length (w_resumes (wd s)) <= k)%nat ->
  let (s', o) := invoke k lib_proc_exit [status] s in o = Exit (if status =? 0 then 2 else 3) /\ stopped s s'.
Proof.
  intros Hk. destruct s as [m p l w]. unfold lib_proc_exit. winit. wstep. cbn [mem pages wd] in *.
  replace (Z.lor (bool_z (negb (status =? 0))) 2) with (if status =? 0 then 2 else 3) by (destruct (status =? 0); reflexivity).
  destruct (exit_loop k m p w (if status =? 0 then 2 else 3) Hk) as (s' & E & ST). rewrite E. split; [reflexivity | apply ST].
Qed.
Print Assumptions proc_exit_status.
Example proc_exit_example :
  let (s', o) := invoke 3 lib_proc_exit [7] (St (fun _ => 0) 1 [] (World [1] [1] [] [] [] [] [5] [[6]; [7]] [] [])) in (o, wd s') = (Exit 3, World [1] [1] [] [] [] [] [7] [] [] []).
Proof. vm_compute. reflexivity. Qed.

(** ** C95: what is not supported stops the program *)

Ltac stop_loop x := match goal with |- context [eval ?k (Loop ?b) (St ?m ?p ?l ?w)] =>
  let s' := fresh "s'" in let E := fresh "E" in let ST := fresh "ST" in
  destruct (stopped_loop x k m p l w) as (s' & E & ST); [assumption | cbn [length]; lia |]; rewrite E; clear E; wstep end.
Lemma fd_valid fd : is_u32 fd -> valid_fd fd -> (fd =? 3) || (5 <=? fd) = false.
Proof. intros H [-> | [-> | [-> | ->]]]; reflexivity. Qed.
Lemma fd_invalid fd : is_u32 fd -> ~ valid_fd fd -> (fd =? 3) || (5 <=? fd) = true.
Proof. unfold is_u32, valid_fd. intros. apply orb_true_iff. rewrite Z.eqb_eq, Z.leb_le. lia. Qed.

Theorem fd_close_stops k s fd : is_u32 fd -> (length (w_resumes (wd s)) <= k)%nat ->
  let (s', o) := invoke k lib_fd_close [fd] s in
  (valid_fd fd -> o = Exit 127 /\ stopped s s') /\ (~ valid_fd fd -> o = Ret (Some EBADF) /\ same s s').
Proof.
  intros H Hk. destruct s as [m p l w]. unfold lib_fd_close. winit. wstep. cbn [mem pages wd] in *.
  destruct ((fd =? 3) || (5 <=? fd)) eqn:E; wstep.
  - split; [intros V; rewrite (fd_valid fd H V) in E; discriminate E | intros _]. repeat split.
  - stop_loop 1%nat. split; [intros _ | intros V; rewrite (fd_invalid fd H V) in E; discriminate E]. split; [reflexivity | apply ST].
Qed.
Print Assumptions fd_close_stops.

Theorem fd_renumber_stops k s from to : is_u32 from -> is_u32 to -> (length (w_resumes (wd s)) <= k)%nat ->
  let (s', o) := invoke k lib_fd_renumber [from; to] s in
  (valid_fd from -> valid_fd to -> from <> to -> o = Exit 127 /\ stopped s s') /\
  (valid_fd from -> from = to -> o = Ret (Some ESUCCESS) /\ same s s') /\
  (~ (valid_fd from /\ valid_fd to) -> o = Ret (Some EBADF) /\ same s s').
Proof.
  intros H H2 Hk. destruct s as [m p l w]. unfold lib_fd_renumber. winit. wstep. cbn [mem pages wd] in *.
  destruct ((from =? 3) || (5 <=? from)) eqn:E; wstep.
  - cbn [orb negb]. wstep. split; [|split]; try (intros V; rewrite (fd_valid _ H V) in E; discriminate E). repeat split.
  - destruct ((to =? 3) || (5 <=? to)) eqn:E2; cbn [orb negb]; wstep.
    + split; [|split]; [intros _ V; rewrite (fd_valid _ H2 V) in E2; discriminate E2 | intros _ <-; congruence | repeat split].
    + destruct (Z.eqb_spec from to); cbn [negb]; wstep.
      * split; [intros; contradiction|]. split; [repeat split|]. intros V.
        assert (VF : valid_fd to). { unfold valid_fd. apply orb_false_iff in E2. rewrite Z.eqb_neq, Z.leb_gt in E2. unfold is_u32 in H2. lia. }
        subst. exfalso. apply V. split; exact VF.
      * stop_loop 2%nat. split; [intros _ _ _; split; [reflexivity | apply ST]|]. split; [intros; contradiction|]. intros V. exfalso. apply V.
        apply orb_false_iff in E2. rewrite Z.eqb_neq, Z.leb_gt in E2. apply orb_false_iff in E. rewrite Z.eqb_neq, Z.leb_gt in E. unfold is_u32 in *. split; unfold valid_fd; lia.
Qed.
Print Assumptions fd_renumber_stops.

(* Rights may be neither added nor dropped.  An attempt to add is an error; an attempt to drop stops the program. *)
Theorem fd_rights_stops k s fd base inheriting : is_u32 fd -> 0 <= base < 2 ^ 64 -> (length (w_resumes (wd s)) <= k)%nat ->
  let (s', o) := invoke k lib_fd_fdstat_set_rights [fd; base; inheriting] s in
  (~ valid_fd fd -> o = Ret (Some EBADF) /\ same s s') /\
  (valid_fd fd -> inheriting <> 0 \/ Z.land base (Z.lnot (rights fd)) <> 0 -> o = Ret (Some ENOTCAPABLE) /\ same s s') /\
  (valid_fd fd -> inheriting = 0 -> base = rights fd -> o = Ret (Some ESUCCESS) /\ same s s') /\
  (valid_fd fd -> inheriting = 0 -> Z.land base (Z.lnot (rights fd)) = 0 -> base <> rights fd -> o = Exit 127 /\ stopped s s').
Proof.
  intros H HB Hk. destruct s as [m p l w]. unfold lib_fd_fdstat_set_rights. winit. wstep. cbn [mem pages wd] in *.
  assert (N0 : Z.land base (Z.lnot 0) = base) by (apply Z.land_m1_r).
  assert (N66 : Z.land base 18446744073709551549 = Z.land base (Z.lnot 66)).
  { change 18446744073709551549 with (Z.land (Z.ones 64) (Z.lnot 66)). rewrite Z.land_assoc, Z.land_ones, Z.mod_small by lia. reflexivity. }
  assert (B64 : Z.land base (Z.lnot 64) = 0 -> base <> 64 -> base = 0).
  { intros L N. assert (base = Z.land base 64).
    { apply Z.bits_inj'. intros i Hi. assert (T : Z.testbit (Z.land base (Z.lnot 64)) i = false) by (rewrite L; apply Z.bits_0).
      rewrite Z.land_spec, Z.lnot_spec in T by lia. rewrite Z.land_spec. destruct (Z.testbit base i), (Z.testbit 64 i); cbn in *; congruence. }
    rewrite H0 in N |- *. change 64 with (2 ^ 6) in *. destruct (Z.testbit base 6) eqn:T.
    - exfalso. apply N. apply Z.bits_inj'. intros i Hi. rewrite Z.land_spec. rewrite Z.pow2_bits_eqb by lia. destruct (Z.eqb_spec 6 i) as [<-|]; [rewrite T; reflexivity | apply andb_false_r].
    - apply Z.bits_inj'. intros i Hi. rewrite Z.land_spec, Z.bits_0. rewrite Z.pow2_bits_eqb by lia. destruct (Z.eqb_spec 6 i) as [<-|]; [rewrite T; reflexivity | apply andb_false_r]. }
  destruct ((fd =? 3) || (5 <=? fd)) eqn:E; wstep.
  { split; [repeat split|]. split; [|split]; intros V; rewrite (fd_valid fd H V) in E; discriminate E. }
  assert (V : valid_fd fd). { unfold valid_fd. apply orb_false_iff in E. rewrite Z.eqb_neq, Z.leb_gt in E. unfold is_u32 in H. lia. }
  destruct (Z.eqb_spec inheriting 0) as [->|NI]; wstep.
  2: { split; [intros NV; exfalso; apply NV; unfold valid_fd in *; auto|]. split; [repeat split|]. split; intros; contradiction. }
  destruct V as [-> | [-> | [-> | ->]]]; cbn [Z.eqb Pos.eqb orb negb rights] in *; wstep; unfold RIGHT_FD_READ, RIGHT_FD_WRITE in *.
  - change (Z.lnot (rights 0)) with (Z.lnot 0). change (rights 0) with 0. rewrite N0. destruct (Z.eqb_spec base 0); cbn [negb]; wstep.
    + split; [intros NV; exfalso; apply NV; unfold valid_fd; auto|]; split; [intros _ [X|X]; contradiction|]. split; [repeat split|]. intros; contradiction.
    + split; [intros NV; exfalso; apply NV; unfold valid_fd in *; auto|]. split; [repeat split|]. split; intros; contradiction.
  - change (rights 1) with 64 in *. cbn [orb negb] in *; wstep.
    destruct (Z.eqb_spec base 64) as [->|N]; cbn [negb]; wstep.
    { split; [intros NV; exfalso; apply NV; unfold valid_fd; auto|]; split; [intros _ [X|X]; [contradiction | exfalso; apply X; reflexivity]|]. split; [repeat split|]. intros; contradiction. }
    destruct (Z.eqb_spec base 0) as [->|N2]; cbn [negb]; wstep.
    + stop_loop 3%nat. split; [intros NV; exfalso; apply NV; unfold valid_fd; auto|]; split; [intros _ [X|X]; [contradiction | exfalso; apply X; reflexivity]|]. split; [intros; congruence|]. intros. split; [reflexivity | apply ST].
    + split; [intros NV; exfalso; apply NV; unfold valid_fd in *; auto|]. split; [repeat split|]. split; intros; [contradiction|]. exfalso. auto.
  - change (rights 2) with 64 in *. cbn [orb negb] in *; wstep.
    destruct (Z.eqb_spec base 64) as [->|N]; cbn [negb]; wstep.
    { split; [intros NV; exfalso; apply NV; unfold valid_fd; auto|]; split; [intros _ [X|X]; [contradiction | exfalso; apply X; reflexivity]|]. split; [repeat split|]. intros; contradiction. }
    destruct (Z.eqb_spec base 0) as [->|N2]; cbn [negb]; wstep.
    + stop_loop 3%nat. split; [intros NV; exfalso; apply NV; unfold valid_fd; auto|]; split; [intros _ [X|X]; [contradiction | exfalso; apply X; reflexivity]|]. split; [intros; congruence|]. intros. split; [reflexivity | apply ST].
    + split; [intros NV; exfalso; apply NV; unfold valid_fd in *; auto|]. split; [repeat split|]. split; intros; [contradiction|]. exfalso. auto.
  - change (Z.lor 2 64) with 66 in *. cbn [orb negb] in *; wstep.
    destruct (Z.eqb_spec base 66) as [->|N]; cbn [negb]; wstep.
    { split; [intros NV; exfalso; apply NV; unfold valid_fd; auto|]; split; [intros _ [X|X]; [contradiction | exfalso; apply X; reflexivity]|]. split; [repeat split|]. intros; contradiction. }
    rewrite N66. destruct (Z.eqb_spec (Z.land base (Z.lnot 66)) 0) as [L|L]; cbn [negb]; wstep.
    + stop_loop 3%nat. split; [intros NV; exfalso; apply NV; unfold valid_fd; auto|]; split; [intros _ [X|X]; contradiction|]. split; [intros; congruence|]. intros. split; [reflexivity | apply ST].
    + split; [intros NV; exfalso; apply NV; unfold valid_fd in *; auto|]. split; [repeat split|]. split; intros; contradiction.
Qed.
Print Assumptions fd_rights_stops.

Example fd_rights_example :
  let s := St (fun _ => 0) 1 [] (poll_world []) in
  (snd (invoke 1 lib_fd_fdstat_set_rights [4; 66; 0] s), snd (invoke 1 lib_fd_fdstat_set_rights [4; 2; 0] s),
   snd (invoke 1 lib_fd_fdstat_set_rights [4; 3; 0] s), snd (invoke 1 lib_fd_close [1] s), snd (invoke 1 lib_fd_renumber [4; 1] s)) =
  (Ret (Some 0), Exit 127, Ret (Some 76), Exit 127, Exit 127).
Proof. vm_compute. reflexivity. Qed.

(* Clocks: real time (0) and monotonic (1) are read from the coarse ones (5 and 6); process and thread time (2 and 3)
   stop the program. *)
Theorem clock_time s k id precision buf : is_u32 id -> is_u32 buf -> buf + 8 <= mem_size s -> (length (w_resumes (wd s)) <= k)%nat ->
  let (s', o) := invoke k lib_clock_time_get [id; precision; buf] s in
  (4 <= id -> o = Ret (Some EINVAL) /\ same s s') /\
  (2 <= id < 4 -> o = Exit 127 /\ stopped s s') /\
  (id < 2 -> match w_times (wd s) with
             | [] => o = Blocked RtTime /\ same s s'
             | clocks :: rest => o = Ret (Some ESUCCESS) /\ mem s' = put_bytes (mem s) buf (le 8 (clocks (id + 5))) /\ pages s' = pages s /\
                 w_times (wd s') = rest
             end).
Proof.
  intros H HB Hs Hk. destruct s as [m p l w]. unfold lib_clock_time_get. winit. unfold mem_size, is_u32 in *. wstep. cbn [mem pages wd] in *.
  destruct (Z.leb_spec 4 id); cbn [negb]; wstep.
  { split; [repeat split|]. split; intros; lia. }
  destruct (Z.ltb_spec id 2).
  - rewrite eval_Loop. wstep. destruct (Z.ltb_spec id 2); [|lia]. cbn [bool_z]. change (1 =? 0) with false. wstep.
    cbn [call_rt]. unfold rt_time. cbn [wd]. rewrite (u32_small (id + 5)) by (unfold is_u32; lia). destruct (w_times w) as [|c rest] eqn:E; wstep.
    + split; [lia|]. split; [lia|]. repeat split.
    + unfold set_wd. cbn [mem pages loc]. wstep. rewrite store_in by lia. wstep. split; [lia|]. split; [lia|]. intros _. rewrite Z.add_0_r. repeat split.
  - assert (L : forall k m p w a v, (length (w_resumes w) <= k)%nat -> exists s',
      eval k (Loop [BrIf 1 (Bin LtU32 (Get 0) (Const 2)); Set_ 3 (Call1 RtStop (Const 127)); BrIf 2 (Bin Ne64 (Get 3) (Const 0)); Br 0]) (St m p [id; a; buf; v] w) = (s', Exit 127) /\
      forall l0, stopped (St m p l0 w) s').
    { clear - H1. induction k; intros m p w a v Hk; rewrite eval_Loop; wstep; rewrite (proj2 (Z.ltb_ge id 2)) by lia; wstep; cbn [bool_z]; change (0 =? 0) with true; wstep; cbn [call_rt]; unfold rt_stop; cbn [wd].
      - destruct (w_resumes w) as [|r rs] eqn:E; [|cbn [length] in Hk; lia]. wstep. eexists. split; [reflexivity|].
        intros l0. unfold stopped. cbn [mem pages wd]. split; [reflexivity|]. split; [reflexivity|]. split; [exact E|]. exists (w_random w). destruct w; cbn in *; subst; reflexivity.
      - destruct (w_resumes w) as [|r rs] eqn:E.
        + wstep. eexists. split; [reflexivity|].
          intros l0. unfold stopped. cbn [mem pages wd]. split; [reflexivity|]. split; [reflexivity|]. split; [exact E|]. exists (w_random w). destruct w; cbn in *; subst; reflexivity.
        + unfold set_wd. cbn [mem pages loc]. wstep. cbn [bool_z]. change (0 =? 0) with true. wstep. set (w1 := World _ _ _ _ _ _ r rs _ _).
          destruct (IHk m p w1 a 0) as (s' & E2 & ST); [cbn [w1 w_resumes]; cbn [length] in Hk; lia|].
          exists s'. split; [exact E2|]. intros l0. destruct (ST l0) as (A & B & C & q & D). split; [exact A|]. split; [exact B|]. split; [exact C|].
          exists q. cbn [wd] in *. rewrite D. reflexivity. }
    destruct (L k m p w precision 0 Hk) as (s' & E & ST). rewrite E. wstep. split; [lia|]. split; [intros _; split; [reflexivity | apply ST]|]. lia.
Qed.
Print Assumptions clock_time.
Example clock_time_example :
  let s := St (fun _ => 0) 1 [] (World [] [] [] [] [] [fun c => 1000 + c; fun c => 2000 + c] [] [] [] []) in
  let (s', o) := invoke 0 lib_clock_time_get [1; 0; 8] s in (o, u64_at (mem s') 8, snd (invoke 0 lib_clock_time_get [2; 0; 8] s)) = (Ret (Some 0), 1006, Exit 127).
Proof. vm_compute. reflexivity. Qed.

(* A clock subscription stops the program; nothing has been answered. *)
Theorem poll_clock_stops k n s sub out np : is_u32 sub -> 0 < n < 2 ^ 32 -> sub + 56 <= mem_size s -> mem s (sub + 8) = 0 ->
  w_resumes (wd s) = [] ->
  let (s', o) := invoke k lib_poll_oneoff [sub; out; n; np] s in o = Exit 127 /\ same s s'.
Proof.
  intros Hs Hn Hl HT HR. destruct s as [m p l w]. unfold mem_size, is_u32 in *. cbn [mem pages wd] in *. unfold lib_poll_oneoff. winit. wstep.
  rewrite eval_Loop. wstep. destruct (Z.eqb_spec n 0); [lia|]. cbn [bool_z]. change (0 =? 0) with true. wstep.
  rewrite load_in by lia. wstep. cbn [bytes_at unle]. rewrite HT. change (0 + 256 * 0) with 0. change (4 <=? 0) with false. change (3 <=? 0) with false. cbn [bool_z]. change (0 =? 0) with true. cbv iota.
  wstep. cbn [call_rt]. unfold rt_stop. cbn [wd]. rewrite HR. wstep. repeat split.
Qed.
Print Assumptions poll_clock_stops.

(* The program doesn't stay stopped: it may be resumed with proc_raise having returned, as if the signal had been
   handled. *)
Theorem proc_raise_stops_refuted : ~ (forall k s sig, (length (w_resumes (wd s)) <= k)%nat ->
  let (s', o) := invoke k lib_proc_raise [sig] s in o = Exit 127 /\ stopped s s').
Proof.
  intros H. specialize (H 1%nat (St (fun _ => 0) 1 [] (World [] [] [] [] [] [] [] [[1]] [] [])) 6 ltac:(cbn; lia)).
  vm_compute in H. destruct H as [H _]. discriminate H.
Qed.
Print Assumptions proc_raise_stops_refuted.

(** ** C96: descriptors and what is answered about them *)

Theorem fdstat_get k s fd buf : is_u32 fd -> is_u32 buf ->
  let (s', o) := invoke k lib_fd_fdstat_get [fd; buf] s in
  same_world s s' /\ same_outside (mem s) (mem s') buf 24 /\
  (~ valid_fd fd -> o = Ret (Some EBADF) /\ mem s' = mem s) /\
  (valid_fd fd -> buf + 24 <= mem_size s ->
     o = Ret (Some ESUCCESS) /\ mem s' buf = 0 /\ u16_at (mem s') (buf + 2) = (if fd =? 4 then 4 else 0) /\
     u64_at (mem s') (buf + 8) = rights fd /\ u64_at (mem s') (buf + 16) = 0) /\
  (valid_fd fd -> mem_size s < buf + 24 -> o = Exit 105).
Proof.
  intros H HB. destruct s as [m p l w]. unfold mem_size, is_u32 in *. cbn [mem pages wd] in *. unfold lib_fd_fdstat_get. winit. wstep.
  destruct ((fd =? 3) || (5 <=? fd)) eqn:E; wstep.
  { split; [repeat split|]. split; [intros x _; reflexivity|]. split; [repeat split|]. split; intros V; rewrite (fd_valid fd H V) in E; discriminate E. }
  assert (V : valid_fd fd). { unfold valid_fd. apply orb_false_iff in E. rewrite Z.eqb_neq, Z.leb_gt in E. lia. }
  assert (ST : forall n ea v m1, buf <= ea -> ea + Z.of_nat n <= buf + 24 -> same_outside m m1 buf 24 -> same_outside m (put_bytes m1 ea (le n v)) buf 24).
  { intros n ea v m1 A B C x X. rewrite put_bytes_other by (rewrite len_le; lia). apply C. exact X. }
  assert (SC : forall n ea v m l w, store n ea v (St m p l w) = if p * 65536 <? ea + Z.of_nat n then (St m p l w, out_of_bounds) else (St (put_bytes m ea (le n v)) p l w, Next None)) by reflexivity.
  assert (SR : same_outside m m buf 24) by (intros x _; reflexivity).
  assert (FIN : forall fl, (fd =? 4 = true -> fl = 4) -> (fd =? 4 = false -> fl = 0) ->
    let P s' o := same_world (St m p l w) s' /\ same_outside m (mem s') buf 24 /\
      (~ valid_fd fd -> o = Ret (Some EBADF) /\ mem s' = m) /\
      (valid_fd fd -> buf + 24 <= p * 65536 -> o = Ret (Some ESUCCESS) /\ mem s' buf = 0 /\ u16_at (mem s') (buf + 2) = (if fd =? 4 then 4 else 0) /\
        u64_at (mem s') (buf + 8) = rights fd /\ u64_at (mem s') (buf + 16) = 0) /\
      (valid_fd fd -> p * 65536 < buf + 24 -> o = Exit 105) in
    let (s', o) := match
        thn (store 1 (buf + 0) 0 (St m p [fd; buf; fl; rights fd] w)) (exec (eval k) [Store 2 2 (Get 1) (Get 2); Store 8 8 (Get 1) (Get 3); Store 8 16 (Get 1) (Const 0); Const 0])
      with (s', Next v) => (s', Ret v) | (s', Brk O) => (s', Ret None) | r => r end in P s' o).
  { intros fl F1 F2 P. assert (BAD : forall m1, same_outside m m1 buf 24 -> p * 65536 < buf + 24 -> P (St m1 p [fd; buf; fl; rights fd] w) out_of_bounds).
    { intros m1 S1 L. split; [split; reflexivity|]. split; [exact S1|]. split; [intros NV; contradiction|]. split; [intros; cbn [pages] in *; lia | reflexivity]. }
    rewrite Z.add_0_r. change (Z.of_nat 1) with 1 in *.
    rewrite SC. destruct (Z.ltb_spec (p * 65536) (buf + Z.of_nat 1)); [rewrite thn_oob; cbv iota; apply BAD; [exact SR | lia]|]. rewrite thn_Next; wstep.
    rewrite SC. destruct (Z.ltb_spec (p * 65536) (buf + 2 + Z.of_nat 2)); [rewrite thn_oob; cbv iota; apply BAD; [apply ST; auto; lia | lia]|]. rewrite thn_Next; wstep.
    rewrite SC. destruct (Z.ltb_spec (p * 65536) (buf + 8 + Z.of_nat 8)); [rewrite thn_oob; cbv iota; apply BAD; [apply ST; try lia; apply ST; auto; lia | lia]|]. rewrite thn_Next; wstep.
    rewrite SC. destruct (Z.ltb_spec (p * 65536) (buf + 16 + Z.of_nat 8)); [rewrite thn_oob; cbv iota; apply BAD; [apply ST; try lia; apply ST; try lia; apply ST; auto; lia | lia]|]. rewrite thn_Next; wstep.
    split; [split; reflexivity|]. cbn [mem]. split; [apply ST; try lia; apply ST; try lia; apply ST; try lia; apply ST; auto; lia|]. split; [intros NV; contradiction|]. split; [|intros; lia].
    intros _ _. split; [reflexivity|].
    assert (RD : forall m1 ea n v a k, (a + Z.of_nat k <= ea \/ ea + Z.of_nat n <= a) -> bytes_at (put_bytes m1 ea (le n v)) a k = bytes_at m1 a k).
    { intros m1 ea n v a k0 D. apply bytes_at_same. intros x Hx. rewrite put_bytes_other by (rewrite len_le; lia). reflexivity. }
    assert (R1 : forall m1 n v a, bytes_at (put_bytes m1 a (le n v)) a n = le n v).
    { intros. rewrite <- (length_le n v) at 2. rewrite bytes_at_put. reflexivity. }
    unfold u16_at, u64_at.
    split. { assert (X : bytes_at (put_bytes (put_bytes (put_bytes (put_bytes m buf (le 1 0)) (buf + 2) (le 2 fl)) (buf + 8) (le 8 (rights fd))) (buf + 16) (le 8 0)) buf 1 = [0]).
      { rewrite !RD by (cbn; lia). apply R1. } cbn [bytes_at] in X. congruence. }
    split. { rewrite RD by (cbn; lia). rewrite RD by (cbn; lia). rewrite R1. destruct (fd =? 4); [rewrite F1 by reflexivity | rewrite F2 by reflexivity]; reflexivity. }
    split. { rewrite RD by (cbn; lia). rewrite R1. destruct V as [-> | [-> | [-> | ->]]]; reflexivity. }
    rewrite R1. reflexivity. }
  destruct V as [-> | [-> | [-> | ->]]]; cbn [Z.eqb Pos.eqb orb negb] in *; wstep.
  - apply (FIN 0); [discriminate | reflexivity].
  - apply (FIN 0); [discriminate | reflexivity].
  - apply (FIN 0); [discriminate | reflexivity].
  - apply (FIN 4); [reflexivity | discriminate].
Qed.
Print Assumptions fdstat_get.
Example fdstat_get_example :
  let (s', o) := invoke 0 lib_fd_fdstat_get [4; 100] (St (fun _ => 1) 1 [] (poll_world [])) in
  (o, bytes_at (mem s') 100 24) = (Ret (Some 0), [0; 1; 4; 0; 1; 1; 1; 1; 66; 0; 0; 0; 0; 0; 0; 0; 0; 0; 0; 0; 0; 0; 0; 0]).
Proof. vm_compute. reflexivity. Qed.

(* An operation for which there is no right is refused, and has no effect. *)
Theorem rights_enforced k s fd iov n np : is_u32 fd -> valid_fd fd ->
  (Z.land (rights fd) RIGHT_FD_READ = 0 -> exists e, e <> ESUCCESS /\ snd (invoke k lib_fd_read [fd; iov; n; np] s) = Ret (Some e) /\ same s (fst (invoke k lib_fd_read [fd; iov; n; np] s))) /\
  (Z.land (rights fd) RIGHT_FD_WRITE = 0 -> exists e, e <> ESUCCESS /\ snd (invoke k lib_fd_write [fd; iov; n; np] s) = Ret (Some e) /\ same s (fst (invoke k lib_fd_write [fd; iov; n; np] s))).
Proof.
  intros H V. split; intros R.
  - assert (N : fd <> 4) by (intros ->; discriminate R). assert (X := fd_read_other k s fd iov n np H N).
    destruct (invoke k lib_fd_read [fd; iov; n; np] s) as [s' o]. destruct X as [X ->]. eexists. split; [|split; [reflexivity | exact X]].
    destruct (fd =? 0); [discriminate|]. destruct (fd <? 3); discriminate.
  - assert (N : fd = 0) by (destruct V as [-> | [-> | [-> | ->]]]; [reflexivity | discriminate R..]). subst.
    assert (X := fd_write_other k s 0 iov n np H). destruct (invoke k lib_fd_write [0; iov; n; np] s) as [s' o].
    destruct X as [X ->]; [lia..|]. eexists. split; [|split; [reflexivity | exact X]]. discriminate.
Qed.
Print Assumptions rights_enforced.

(* Functions that only tell whether the descriptor is good *)
Definition seekless : list func := [lib_fd_stub_i32; lib_fd_stub_i32i32; lib_fd_stub_i32i64; lib_fd_stub_i32i32i32; lib_fd_stub_i32i64i64;
  lib_fd_stub_i32i64i32i32; lib_fd_stub_i32i64i64i32; lib_fd_stub_i32i32i32i64i32].
Definition sockets : list func := [lib_sock_recv; lib_sock_send; lib_sock_shutdown].
Definition paths : list func := [lib_path_stub_i32i32i32; lib_path_stub_i32i32i32i32i32; lib_path_stub_i32i32i32i32i32i32; lib_path_stub_i32i32i32i32i32i32i32;
  lib_path_stub_i32i32i32i32i64i64i32; lib_path_stub_i32i32i32i32i32i64i64i32i32].
Theorem stubs k s f fd args : is_u32 fd -> length (fd :: args) = f_params f ->
  let (s', o) := invoke k f (fd :: args) s in
  (In f seekless -> same s s' /\ (valid_fd fd -> o = Ret (Some ESPIPE)) /\ (~ valid_fd fd -> o = Ret (Some EBADF))) /\
  (In f sockets -> same s s' /\ (valid_fd fd -> o = Ret (Some ENOTSOCK)) /\ (~ valid_fd fd -> o = Ret (Some EBADF))) /\
  (In f [lib_fd_fdstat_set_flags] -> same s s' /\ (valid_fd fd -> o = Ret (Some EPERM)) /\ (~ valid_fd fd -> o = Ret (Some EBADF))) /\
  (In f paths -> same s s' /\ o = Ret (Some ENOENT)).
Proof.
  intros H HL. destruct s as [m p l w]. destruct (invoke k f (fd :: args) (St m p l w)) as [s' o] eqn:EI.
  assert (FDS : forall e l', match exec (eval k) [Block [BrIf 0 (Const 1); Call0 RtNop];
      If (Bin Or32 (Bin Eq32 (Get 0) (Const 3)) (Bin GeU32 (Get 0) (Const 5))) [Return (Const 8)] []; Const e] (St m p (fd :: l') w) with
      | (s', Next v) => (s', Ret v) | (s', Brk O) => (s', Ret None) | r => r end = (s', o) ->
    same (St m p l w) s' /\ (valid_fd fd -> o = Ret (Some e)) /\ (~ valid_fd fd -> o = Ret (Some EBADF))).
  { clear EI. intros e l'. wstep. destruct ((fd =? 3) || (5 <=? fd)) eqn:E; wstep; intros X; inversion X; subst; split; try (repeat split; fail); split; intros V; auto.
    - rewrite (fd_valid fd H V) in E. discriminate E.
    - rewrite (fd_invalid fd H V) in E. discriminate E. }
  assert (PTH : forall l', match exec (eval k) [Block [BrIf 0 (Const 1); Call0 RtNop]; Const 44] (St m p l' w) with
      | (s', Next v) => (s', Ret v) | (s', Brk O) => (s', Ret None) | r => r end = (s', o) -> same (St m p l w) s' /\ o = Ret (Some ENOENT)).
  { clear EI. intros l'. wstep. intros X. inversion X. repeat split. }
  rewrite invoke_eq in EI. cbn [mem pages wd app] in EI.
  split; [|split; [|split]]; intros HI; cbn [In seekless sockets paths] in HI;
    repeat match goal with X : _ \/ _ |- _ => destruct X as [X | X] end; try contradiction; subst f;
    try (eapply FDS; exact EI); eapply PTH; exact EI.
Qed.
Print Assumptions stubs.
Example stubs_example : let s := St (fun _ => 0) 1 [] (poll_world []) in
  map (fun f => snd (invoke 0 f (repeat 2 (f_params f)) s)) (seekless ++ sockets ++ paths) = repeat (Ret (Some 70)) 8 ++ repeat (Ret (Some 57)) 3 ++ repeat (Ret (Some 44)) 6.
Proof. vm_compute. reflexivity. Qed.

(* No arguments; yielding does nothing. *)
Theorem no_args k s a b : is_u32 a -> is_u32 b -> a + 4 <= mem_size s -> b + 4 <= mem_size s ->
  (let (s', o) := invoke k lib_args_sizes_get [a; b] s in
   o = Ret (Some ESUCCESS) /\ same_world s s' /\ mem s' = put_bytes (put_bytes (mem s) a (le 4 0)) b (le 4 0)) /\
  (let (s', o) := invoke k lib_args_get [a; b] s in o = Ret (Some ESUCCESS) /\ same s s') /\
  (let (s', o) := invoke k lib_sched_yield [] s in o = Ret (Some ESUCCESS) /\ same s s').
Proof.
  intros Ha Hb H1 H2. destruct s as [m p l w]. unfold mem_size, is_u32 in *. cbn [pages] in *.
  unfold lib_args_sizes_get, lib_args_get, lib_sched_yield. rewrite !invoke_eq. cbn [f_body f_locals repeat app]. wstep.
  rewrite store_in by lia. wstep. rewrite store_in by lia. wstep. rewrite !Z.add_0_r. repeat split.
Qed.
Print Assumptions no_args.

(* The size in the answer about a file is an eight-byte field of which half is written. *)
Theorem filestat_size_refuted : ~ (forall k s fd buf, is_u32 fd -> is_u32 buf -> valid_fd fd -> buf + 56 <= mem_size s ->
  let (s', o) := invoke k lib_fd_filestat_get [fd; buf] s in o = Ret (Some ESUCCESS) /\ u64_at (mem s') (buf + 24) = 0).
Proof.
  intros H. specialize (H 0%nat (St (fun _ => 1) 1 [] (poll_world [])) 4 0 ltac:(unfold is_u32; lia) ltac:(unfold is_u32; lia) ltac:(unfold valid_fd; auto) ltac:(vm_compute; discriminate)).
  vm_compute in H. destruct H as [_ H]. discriminate H.
Qed.
Print Assumptions filestat_size_refuted.
