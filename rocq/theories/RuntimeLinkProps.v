(* RuntimeLinkProps.v: the functions that the guest library calls (Wasm.v) are what the machine code of runtime.S does. *)
From Verif Require Import Wasm RuntimeKernel RuntimeLinkProofs RuntimeProps.
From Coq Require Import Lia ZArith List Bool.
Import ListNotations.
Local Open Scope Z_scope.

(** * C109 *)

(* Whatever the process's memory and registers, and whatever the kernel answers: when the guest calls an imported
   function, the machine code comes to the end that Wasm.v's function has: it returns with the same result, having left
   the same memory, the same random bytes, and the same input, output and debug output in the world; or the process exits with the same
   code; or it waits in a system call that hasn't been answered.  (rt_time is C97's subject.  For rt_stop: until the
   program is resumed.) *)
Theorem runtime_implements_calls : forall f s sp text vars t,
  imported s sp text vars -> memory_apart s sp text vars -> shows (mm s) text vars t -> answers_ok (wd t) ->
  pc s = rt_label f -> f <> RtTime -> (f = RtStop -> w_resumes (wd t) = []) ->
  leads (wd t) (More s) (fun w e => let (t', o) := call_rt f (rt_args (mm s) sp f) t in agrees s sp text vars t' o w e).
Proof.
  intros f s sp text vars t HI HA HS HW Hpc HT HR. destruct f; cbn [rt_label rt_args] in *.
  all: first
    [ congruence
    | exact (link_nop s sp text vars t HI HA HS Hpc)
    | exact (link_debug s sp text vars t HI HA HS HW Hpc)
    | exact (link_poll s sp text vars t HI HA HS HW Hpc)
    | exact (link_random s sp text vars t HI HA HS Hpc)
    | exact (link_read s sp text vars t HI HA HS HW Hpc)
    | exact (link_stop s sp text vars t HI HS Hpc (HR eq_refl))
    | exact (link_write s sp text vars t HI HA HS HW Hpc) ].
Qed.
Print Assumptions runtime_implements_calls.

(* A process in the middle of its life, a state that it shows, and a kernel with some answers *)
Definition ex_world : world :=
  World [1; 2; 3; 4; 5; 6; 7; 8] [5; -11; 0] [6; -11; 3] [-11; 2] [Revents 0 0; PollErrno 4; Revents 1 4] []
    (random_left ex_mem 2097152 (s_random_avail ex_mem 65536)) [] [] [].
Definition ex_st : st := St (fun a => ex_mem (v_memory ex_mem 2097152 + a)) (s_pages ex_mem 65536) [] ex_world.
Example a_state_shown : forall p ax, shows (mm (ex_cpu p ax (65536 + 9984))) 2097152 65536 ex_st /\ answers_ok (wd ex_st) /\
  length (w_random (wd ex_st)) = 8%nat.
Proof.
  intros p ax. split; [|split].
  - constructor; try reflexivity. vm_compute. split; congruence.
  - constructor; cbn [ex_st wd ex_world w_input w_reads w_writes w_debugs w_polls]; repeat constructor; lia.
  - vm_compute. reflexivity.
Qed.
(* What Wasm.v says of the calls there: each comes to a different end *)
Example ends_of_calls : let m := ex_mem in
  (snd (call_rt RtRead (rt_args m 131072 RtRead) ex_st), w_input (wd (fst (call_rt RtRead (rt_args m 131072 RtRead) ex_st)))) = (Next (Some 5), [6; 7; 8]) /\
  (snd (call_rt RtWrite (rt_args m 131072 RtWrite) ex_st), length (w_sent (wd (fst (call_rt RtWrite (rt_args m 131072 RtWrite) ex_st))))) = (Next (Some 6), 6%nat) /\
  snd (call_rt RtRandom (rt_args m 131072 RtRandom) ex_st) = Next (Some (v_random m 2097152 7)).
Proof. vm_compute. repeat split. Qed.
