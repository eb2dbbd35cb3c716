(* GuestIoProps.v: what a guest program's reads, writes and the io function transfer (C87-C90).

   k bounds the number of loop iterations of the interpreter; n is the number of vectors. *)
From Verif Require Import GuestLibSpec GuestLib BaseLemmas GuestLibProofs GuestIoProofs.

(** ** C87: fd_write to the Gate descriptor *)

(* Whatever the kernel answers, what is sent is a beginning of what the vectors refer to, in order and without
   gaps.  When the function returns, the stored count is exactly the number of sent bytes, and nothing else has
   changed.  If the kernel accepts everything, everything is sent.  Otherwise the process has exited, because of
   an access out of bounds or a write error, or it is waiting. *)
Theorem fd_write_gate k n s iov np :
  guest_ok s -> is_u32 iov -> is_u32 np -> (n <= k)%nat -> Z.of_nat n < 2 ^ 32 ->
  len (gather (mem s) (iovs (mem s) iov n)) < 2 ^ 32 ->
  let (s', o) := invoke k lib_fd_write [4; iov; Z.of_nat n; np] s in
  exists d, prefix_of d (gather (mem s) (iovs (mem s) iov n)) /\ sends (wd s) (wd s') d /\ pages s' = pages s /\
    match o with
    | Ret (Some r) => mem s' = put_bytes (mem s) np (le 4 (len d)) /\ r = (if len d =? 0 then EAGAIN_ else ESUCCESS) /\
                      (all_accepted (wd s) -> d = gather (mem s) (iovs (mem s) iov n))
    | Exit e => mem s' = mem s /\ (e = 105 \/ e = ERR_RT_WRITE)
    | Blocked f => mem s' = mem s /\ f = RtWrite
    | _ => False
    end.
Proof. apply fd_write_gate_spec. Qed.
Print Assumptions fd_write_gate.

(* Two vectors, at 16: (64, 3) and (80, 2); the bytes at 64 are "abc" and at 80 "de".  The first write is accepted,
   the second one only in part. *)
Definition ex_mem : Z -> Z :=
  put_bytes (put_bytes (put_bytes (fun _ => 0) 16 (le 4 64 ++ le 4 3 ++ le 4 80 ++ le 4 2)) 64 [97; 98; 99]) 80 [100; 101].
Definition ex_world (writes reads : list Z) (input : bytes) (polls : list poll_answer) : world :=
  World input reads writes [2; 1; 10] polls [fun _ => 77] [] [] [9] [].
Definition ex_st writes reads input polls : st := St ex_mem 1 [] (ex_world writes reads input polls).
Lemma ex_mem_ok a : 0 <= ex_mem a < 256.
Proof.
  unfold ex_mem. apply put_bytes_ok; [apply put_bytes_ok; [apply put_bytes_ok; [intros; lia|]|]|]; repeat constructor; vm_compute; intuition congruence.
Qed.
Lemma ex_guest_ok writes reads input polls : Forall (fun b => 0 <= b < 256) input -> guest_ok (ex_st writes reads input polls).
Proof. split; [exact ex_mem_ok|]. cbn. split; [lia|]. split; [assumption|]. split; constructor. Qed.
Example fd_write_example :
  let (s', o) := invoke 2 lib_fd_write [4; 16; 2; 0] (ex_st [5; 1] [] [] []) in
  (o, w_sent (wd s'), bytes_at (mem s') 0 4) = (Ret (Some 0), [9; 97; 98; 99; 100], [4; 0; 0; 0]).
Proof. vm_compute. reflexivity. Qed.
Example fd_write_hypotheses : guest_ok (ex_st [5; 1] [] [] []) /\ len (gather ex_mem (iovs ex_mem 16 2)) < 2 ^ 32.
Proof. split; [apply ex_guest_ok; constructor | vm_compute; reflexivity]. Qed.

(* Other descriptors are refused without effects. *)
Theorem fd_write_other k s fd iov n np : is_u32 fd -> fd <> 1 -> fd <> 2 -> fd <> 4 ->
  let (s', o) := invoke k lib_fd_write [fd; iov; n; np] s in
  same s s' /\ o = Ret (Some (if fd =? 0 then EINVAL else EBADF)).
Proof.
  intros H H1 H2 H4. destruct s as [m p l w]. unfold lib_fd_write. winit. wstep.
  destruct ((fd =? 3) || (5 <=? fd)) eqn:E; wstep.
  - split; [repeat split|]. destruct (Z.eqb_spec fd 0); [subst; discriminate | reflexivity].
  - assert (fd = 0) as ->.
    { apply orb_false_iff in E. destruct E as [E1 E2]. apply Z.eqb_neq in E1. apply Z.leb_gt in E2. unfold is_u32 in H. lia. }
    wstep. split; [repeat split | reflexivity].
Qed.
Print Assumptions fd_write_other.

(* A write that is accepted in its entirety is not always reported as a success: an empty write is reported as one
   that should be tried again. *)
Theorem fd_write_success_refuted : ~ (forall k n s iov np,
  guest_ok s -> is_u32 iov -> is_u32 np -> (n <= k)%nat -> Z.of_nat n < 2 ^ 32 ->
  len (gather (mem s) (iovs (mem s) iov n)) < 2 ^ 32 -> all_accepted (wd s) ->
  let (s', o) := invoke k lib_fd_write [4; iov; Z.of_nat n; np] s in
  match o with Ret (Some r) => r = ESUCCESS | _ => True end).
Proof.
  intros H. specialize (H 0%nat 0%nat (ex_st [] [] [] []) 16 0).
  assert (G : guest_ok (ex_st [] [] [] [])) by (apply ex_guest_ok; constructor).
  assert (U : forall x, 0 <= x <= 16 -> is_u32 x) by (unfold is_u32; lia).
  specialize (H G ltac:(apply U; lia) ltac:(apply U; lia) ltac:(lia) ltac:(cbn; lia) ltac:(vm_compute; reflexivity) ltac:(constructor)).
  vm_compute in H. discriminate H.
Qed.
Print Assumptions fd_write_success_refuted.

(* With a memory of 4 GiB (65536 pages), no buffer is within the bounds: the size's 32-bit representation is zero. *)
Theorem fd_write_bounds_refuted : ~ (forall k n s iov np,
  (forall a, 0 <= mem s a < 256) -> 0 <= pages s <= 65536 -> is_u32 iov -> is_u32 np -> (n <= k)%nat -> Z.of_nat n < 2 ^ 32 ->
  iov + 8 * Z.of_nat n <= mem_size s -> np + 4 <= mem_size s ->
  Forall (fun v => fst v + snd v <= mem_size s) (iovs (mem s) iov n) ->
  let (s', o) := invoke k lib_fd_write [4; iov; Z.of_nat n; np] s in o <> Exit 105).
Proof.
  intros H. specialize (H 2%nat 2%nat (St ex_mem 65536 [] (ex_world [5; 5] [] [] [])) 16 0).
  assert (U : forall x, 0 <= x <= 16 -> is_u32 x) by (unfold is_u32; lia).
  specialize (H ex_mem_ok ltac:(cbn; lia) ltac:(apply U; lia) ltac:(apply U; lia) ltac:(lia) ltac:(cbn; lia) ltac:(vm_compute; congruence) ltac:(vm_compute; congruence)).
  assert (V : Forall (fun v => fst v + snd v <= mem_size (St ex_mem 65536 [] (ex_world [5; 5] [] [] []))) (iovs ex_mem 16 2)).
  { change (iovs ex_mem 16 2) with [(64, 3); (80, 2)]. repeat constructor; vm_compute; congruence. }
  specialize (H V). vm_compute in H. apply H. reflexivity.
Qed.
Print Assumptions fd_write_bounds_refuted.

(** ** C88: fd_write to standard output and error *)

(* The same, to the debug output; a return implies that all has been written, unless the kernel answers a write
   with zero. *)
Theorem fd_write_debug k n s fd iov np : fd = 1 \/ fd = 2 ->
  guest_ok s -> debug_works (wd s) -> is_u32 iov -> is_u32 np -> (n <= k)%nat -> Z.of_nat n < 2 ^ 32 ->
  len (gather (mem s) (iovs (mem s) iov n)) < 2 ^ 32 ->
  let (s', o) := invoke k lib_fd_write [fd; iov; Z.of_nat n; np] s in
  exists d, prefix_of d (gather (mem s) (iovs (mem s) iov n)) /\ debugs (wd s) (wd s') d /\ pages s' = pages s /\
    match o with
    | Ret (Some r) => mem s' = put_bytes (mem s) np (le 4 (len d)) /\ r = (if len d =? 0 then EAGAIN_ else ESUCCESS) /\
                      d = gather (mem s) (iovs (mem s) iov n)
    | Exit e => mem s' = mem s /\ (e = 105 \/ e = ERR_RT_DEBUG)
    | Blocked f => mem s' = mem s /\ f = RtDebug
    | _ => False
    end.
Proof. apply fd_write_debug_spec. Qed.
Print Assumptions fd_write_debug.

Example fd_write_debug_example :
  let (s', o) := invoke 2 lib_fd_write [2; 16; 2; 0] (ex_st [] [] [] []) in
  (o, w_debug (wd s'), w_sent (wd s'), bytes_at (mem s') 0 4) = (Ret (Some 0), [97; 98; 99; 100; 101], [9], [5; 0; 0; 0]).
Proof. vm_compute. reflexivity. Qed.
Example debug_works_example : debug_works (wd (ex_st [] [] [] [])).
Proof. repeat constructor; discriminate. Qed.

(** ** C89: fd_read *)

(* What is received is a beginning of the input, it is put into the buffers in order, the rest of the input stays,
   and the stored count is exactly the number of received bytes.  If the kernel gives what there is, either the
   buffers are full or the input is used up. *)
Theorem fd_read_gate k n s iov np :
  guest_ok s -> is_u32 iov -> is_u32 np -> (n <= k)%nat -> Z.of_nat n < 2 ^ 32 ->
  capacity (iovs (mem s) iov n) < 2 ^ 32 ->
  Forall (fun v => apart (fst v) (snd v) iov (8 * Z.of_nat n)) (iovs (mem s) iov n) ->
  let (s', o) := invoke k lib_fd_read [4; iov; Z.of_nat n; np] s in
  exists d, len d <= capacity (iovs (mem s) iov n) /\ receives (wd s) (wd s') d /\ pages s' = pages s /\
    match o with
    | Ret (Some r) => mem s' = put_bytes (scatter (mem s) (iovs (mem s) iov n) d) np (le 4 (len d)) /\
                      r = (if len d =? 0 then EAGAIN_ else ESUCCESS) /\
                      (all_available (wd s) -> len d = capacity (iovs (mem s) iov n) \/ w_input (wd s') = [])
    | Exit e => mem s' = scatter (mem s) (iovs (mem s) iov n) d /\ (e = 105 \/ e = ERR_RT_READ)
    | Blocked f => mem s' = scatter (mem s) (iovs (mem s) iov n) d /\ f = RtRead
    | _ => False
    end.
Proof. apply fd_read_gate_spec. Qed.
Print Assumptions fd_read_gate.

Example fd_read_example :
  let (s', o) := invoke 2 lib_fd_read [4; 16; 2; 0] (ex_st [] [3; 9] [1; 2; 3; 4; 5; 6] []) in
  (o, w_input (wd s'), bytes_at (mem s') 0 4, bytes_at (mem s') 64 3, bytes_at (mem s') 80 3) =
  (Ret (Some 0), [6], [5; 0; 0; 0], [1; 2; 3], [4; 5; 0]).
Proof. vm_compute. reflexivity. Qed.
Example fd_read_hypotheses : guest_ok (ex_st [] [3; 9] [1; 2; 3; 4; 5; 6] []) /\ capacity (iovs ex_mem 16 2) < 2 ^ 32 /\
  Forall (fun v => apart (fst v) (snd v) 16 (8 * Z.of_nat 2)) (iovs ex_mem 16 2).
Proof.
  split; [apply ex_guest_ok; repeat constructor; lia|]. split; [vm_compute; reflexivity|].
  change (iovs ex_mem 16 2) with [(64, 3); (80, 2)]. unfold apart. repeat constructor; cbn; lia.
Qed.

Theorem fd_read_other k s fd iov n np : is_u32 fd -> fd <> 4 ->
  let (s', o) := invoke k lib_fd_read [fd; iov; n; np] s in
  same s s' /\ o = Ret (Some (if fd =? 0 then EPERM else if fd <? 3 then EINVAL else EBADF)).
Proof.
  intros H H4. destruct s as [m p l w]. unfold lib_fd_read. winit. wstep. unfold is_u32 in H.
  destruct ((fd =? 3) || (5 <=? fd)) eqn:E; wstep.
  - split; [repeat split|]. apply orb_true_iff in E. rewrite Z.eqb_eq, Z.leb_le in E.
    destruct (Z.eqb_spec fd 0); [lia|]. destruct (Z.ltb_spec fd 3); [lia | reflexivity].
  - apply orb_false_iff in E. rewrite Z.eqb_neq, Z.leb_gt in E. cbn [mem pages wd].
    destruct (Z.eqb_spec fd 0); wstep; [split; [repeat split | reflexivity]|].
    destruct (Z.eqb_spec fd 4); [lia|]. wstep. split; [repeat split|].
    destruct (Z.ltb_spec fd 3); [reflexivity | lia].
Qed.
Print Assumptions fd_read_other.

(** ** C90: io *)

(* First the wait, if any; then sending, if output is ready, and then receiving, if input is ready; both as above.
   The counts are stored unless their pointers are null. *)
Theorem io_transfers k rn sn s recv nrecv send nsent flags :
  guest_ok s -> is_u32 recv -> is_u32 nrecv -> is_u32 send -> is_u32 nsent ->
  (rn <= k)%nat -> (sn <= k)%nat -> Z.of_nat rn < 2 ^ 32 -> Z.of_nat sn < 2 ^ 32 ->
  let sv := iovs (mem s) send sn in
  let rv := iovs (mem s) recv rn in
  len (gather (mem s) sv) < 2 ^ 32 -> capacity rv < 2 ^ 32 ->
  Forall (fun v => apart (fst v) (snd v) recv (8 * Z.of_nat rn)) rv ->
  apart nsent 4 recv (8 * Z.of_nat rn) ->
  let (s1, o1) := after_wait flags (Z.of_nat sn) s in
  let (s', o) := invoke k lib_io [recv; Z.of_nat rn; nrecv; send; Z.of_nat sn; nsent; flags] s in
  match o1 with
  | Next (Some ready) =>
      exists d g w, prefix_of d (gather (mem s) sv) /\ len g <= capacity rv /\ sends (wd s1) w d /\ receives w (wd s') g /\
        (Z.land ready POLLOUT = 0 -> d = []) /\ (Z.land ready POLLIN = 0 -> g = []) /\ pages s' = pages s /\
        match o with
        | Ret v => v = None /\ mem s' = with_count (scatter (with_count (mem s) nsent d) rv g) nrecv g /\
                   (Z.land ready POLLOUT <> 0 -> all_accepted (wd s) -> d = gather (mem s) sv) /\
                   (Z.land ready POLLIN <> 0 -> all_available (wd s) -> len g = capacity rv \/ w_input (wd s') = [])
        | Exit e => (g = [] /\ mem s' = mem s \/ mem s' = scatter (with_count (mem s) nsent d) rv g) /\ (e = 105 \/ e = ERR_RT_WRITE \/ e = ERR_RT_READ)
        | Blocked f => (g = [] /\ mem s' = mem s \/ mem s' = scatter (with_count (mem s) nsent d) rv g) /\ (f = RtWrite \/ f = RtRead)
        | _ => False
        end
  | _ => o = o1 /\ wd s' = wd s1 /\ mem s' = mem s /\ pages s' = pages s /\ (o = Exit ERR_RT_POLL \/ o = Blocked RtPoll)
  end.
Proof. apply io_spec. Qed.
Print Assumptions io_transfers.

(* Output becomes ready first: only sending is done. *)
Example io_wait_example :
  let (s', o) := invoke 2 lib_io [16; 2; 4; 16; 2; 8; 1] (ex_st [3; 2] [3; 2] [1; 2; 3] [Revents 0 POLLOUT]) in
  (o, w_sent (wd s'), w_input (wd s'), bytes_at (mem s') 4 8) = (Ret None, [9; 97; 98; 99; 100; 101], [1; 2; 3], [0; 0; 0; 0; 5; 0; 0; 0]).
Proof. vm_compute. reflexivity. Qed.
(* No wait: both *)
Example io_example :
  let (s', o) := invoke 2 lib_io [16; 2; 4; 16; 2; 8; 0] (ex_st [3; -11] [2; 2] [1; 2; 3] []) in
  (o, w_sent (wd s'), w_input (wd s'), bytes_at (mem s') 4 8, bytes_at (mem s') 64 3) =
  (Ret None, [9; 97; 98; 99], [3], [2; 0; 0; 0; 3; 0; 0; 0], [1; 2; 99]).
Proof. vm_compute. reflexivity. Qed.
(* Nothing happens: the guest waits. *)
Example io_blocked_example :
  let (s', o) := invoke 2 lib_io [16; 2; 4; 16; 0; 8; 1] (ex_st [3; 2] [3; 2] [1; 2; 3] [Revents 0 POLLOUT]) in
  (o, w_input (wd s')) = (Blocked RtPoll, [1; 2; 3]).
Proof. vm_compute. reflexivity. Qed.
