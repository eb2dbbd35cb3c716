(* GrpcProps.v: properties of the client of service processes (C112, C113). *)
From Verif Require Import BaseLemmas GrpcSpec GrpcProofs.
Local Open Scope Z_scope.

(** ** C112 *)

(* Whatever the order in which service instances get and release keys: at all times the instances of a program process have the
   same key, ... *)
Theorem process_has_one_key proc n l i j a b :
  NoDup (generated l) -> Forall (fun x => (kinst x < n)%nat) l ->
  k_phase (krun proc l kinit) i = Have a -> k_phase (krun proc l kinit) j = Have b -> proc i = proc j -> a = b.
Proof.
  intros ND F A B P. destruct (kinv_run proc n l ND F) as [I _].
  destruct (ki_have _ _ _ _ I i a A) as (e & E & <-). destruct (ki_have _ _ _ _ I j b B) as (e' & E' & <-).
  rewrite P in E. congruence.
Qed.
Print Assumptions process_has_one_key.

(* ... a key which one process has or has had is never given to another process, ... *)
Theorem key_has_one_process proc n l1 l2 i j k :
  NoDup (generated (l1 ++ l2)) -> Forall (fun x => (kinst x < n)%nat) (l1 ++ l2) ->
  k_phase (krun proc l1 kinit) i = Have k -> k_phase (krun proc (l1 ++ l2) kinit) j = Have k -> proc i = proc j.
Proof.
  intros ND F A B. pose proof ND as ND1. rewrite generated_app in ND1. apply NoDup_app_l in ND1.
  pose proof F as F1. apply Forall_app in F1. destruct F1 as [F1 _].
  destruct (kinv_run proc n l1 ND1 F1) as [I1 _]. destruct (ki_have _ _ _ _ I1 i k A) as (e & E & <-).
  pose proof (owned_run proc n l2 _ _ l1 ND F (ki_table _ _ _ _ I1 _ _ E)) as (_ & T & _).
  destruct (kinv_run proc n (l1 ++ l2) ND F) as [I2 _]. destruct (ki_have _ _ _ _ I2 j _ B) as (e' & E' & K').
  symmetry. eapply T; eassumption.
Qed.
Print Assumptions key_has_one_process.

(* ... and a key is remembered exactly while an instance has it. *)
Theorem key_is_kept_while_used proc n l p :
  NoDup (generated l) -> Forall (fun x => (kinst x < n)%nat) l ->
  match k_table (krun proc l kinit) p with
  | Some e => e_count e = holders proc (krun proc l kinit) n p /\
              exists i, (i < n)%nat /\ proc i = p /\ k_phase (krun proc l kinit) i = Have (e_key e)
  | None => forall i, proc i = p -> has_key (krun proc l kinit) i = false
  end.
Proof.
  intros ND F. destruct (kinv_run proc n l ND F) as [I O]. pose proof (ki_count _ _ _ _ I p) as C.
  set (s := krun proc l kinit) in *. destruct (k_table s p) as [e|] eqn:E.
  - destruct C as [C P]. split; [exact C|]. unfold holders in C.
    destruct (filter (fun i => has_key s i && Nat.eqb (proc i) p) (seq 0 n)) as [|i r] eqn:Q; [cbn in C; lia|].
    assert (X : In i (i :: r)) by now left. rewrite <- Q in X. apply filter_In in X. destruct X as [X Y].
    apply andb_prop in Y. destruct Y as [Y Z]. apply Nat.eqb_eq in Z. apply in_seq in X. exists i. split; [lia|]. split; [exact Z|].
    unfold has_key in Y. destruct (k_phase s i) as [| |k|] eqn:K; try discriminate.
    destruct (ki_have _ _ _ _ I i k K) as (e' & E' & K'). rewrite Z in E'. f_equal. congruence.
  - intros i P. destruct (le_lt_dec n i) as [G|G].
    + unfold has_key. now rewrite (O i G).
    + unfold holders in C. assert (X := count_zero_none _ (seq 0 n) i ltac:(apply Nat2Z.inj; exact C) ltac:(apply in_seq; lia)).
      cbn beta in X. rewrite P, Nat.eqb_refl, Bool.andb_true_r in X. exact X.
Qed.
Print Assumptions key_is_kept_while_used.

(* Instances 0 and 1 of process 7 miss at the same time, and instance 2 of process 8 comes between *)
Definition ex_proc (i : nat) : nat := if Nat.ltb i 2 then 7%nat else 8%nat.
Definition ex_steps : list kstep := [Look 0 100; Look 1 101; Look 2 102; Insert 1; Insert 2; Insert 0; Release 1].
Example ex_keys :
  (map (k_phase (krun ex_proc ex_steps kinit)) [0; 1; 2]%nat, k_table (krun ex_proc ex_steps kinit) 7%nat, generated ex_steps) =
  ([Have 101; Released; Have 102], Some (Entry 101 1), [100; 101; 102]%nat).
Proof. reflexivity. Qed.
Example ex_keys_gone : k_table (krun ex_proc (ex_steps ++ [Release 0]) kinit) 7%nat = None.
Proof. reflexivity. Qed.

(** ** C113 *)

(* Packets of a service: never a crash or a false alarm, and the packets that went to the program, followed by those that were
   kept for the snapshot, are the service's messages in order, each once, unless the stream hasn't ended.  Those that went to the
   program and the first of those kept have the service's code; those kept have their sizes. *)
Theorem service_messages_arrive_once code choices stream :
  Forall packet_like (messages stream) ->
  let f := receive_forward code choices [] 0 stream in
  f_end f <> Crashed /\ (f_aborts f <= 1)%nat /\ Forall (coded code) (f_sent f) /\
  (f_end f = Done ->
     exists kept, Forall2 same_packet (f_sent f ++ kept) (messages stream) /\
       match f_left f with
       | Some b => cut b kept /\ exists p t, kept = p :: t /\ coded code p
       | None => kept = [] end) /\
  (f_end f <> Done -> f_left f = None /\ Forall2 same_packet (f_sent f) (firstn (length (f_sent f)) (messages stream))).
Proof.
  intros P. cbn zeta. destruct (receive_forward_spec code stream choices [] 0 P) as ((more & E & C & Q) & A).
  cbn [app] in E. rewrite E. destruct Q as [(rest & Q1 & _ & Q3 & Q4 & Q5) | (Q1 & left & Q2 & Q3)].
  - repeat split; auto. contradiction.
  - split; [congruence|]. split; [exact A|]. split; [exact C|]. split; [|congruence]. intros _. exists left. now split.
Qed.
Print Assumptions service_messages_arrive_once.

(* Sending to the service: as long as nothing fails, the packets that it got, followed by those kept for the snapshot, are the
   program's packets in order, each once; after a failure, they are those before it.  A failed call must not have been effective. *)
Theorem program_packets_arrive_once_partial l :
  Forall (fun x => sized (fst x)) l -> Forall (fun x => r_got (snd x) = r_ok (snd x)) l ->
  let h := handle_all l (Handled [] [] false) in
  exists n kept, cut (h_incoming h) kept /\ h_got h ++ kept = firstn n (map fst l) /\
    (h_error h = false -> n = length l).
Proof.
  intros Z R. cbn zeta. destruct (handle_all_spec l (Handled [] [] false) [] eq_refl Z R (cut_nil)) as (n & m & inc & C & M & L & M0 & Q).
  exists n, inc. split; [exact C|]. split; [exact Q|]. intros E. apply M0. now rewrite M, E.
Qed.
Print Assumptions program_packets_arrive_once_partial.

(* A call that was canceled after the service had got the packet: the packet is also in the snapshot *)
Theorem canceled_call_duplicates_refuted p :
  p <> [] -> sized p ->
  let h := handle_all [(p, Rpc false true true)] (Handled [] [] false) in
  h_error h = false /\ h_got h = [p] /\ cut (h_incoming h) [p].
Proof.
  intros N S. cbn. repeat split. rewrite <- (app_nil_r p) at 1. constructor; [exact S|constructor].
Qed.
Print Assumptions canceled_call_duplicates_refuted.

(* A message shorter than 6 bytes crashes the server, whatever happened before and whatever is chosen *)
Theorem short_message_crashes_refuted code choices sent n b stream :
  (length b < 6)%nat -> f_end (receive_forward code choices sent n (Msg b :: stream)) = Crashed.
Proof.
  intros L. cbn [receive_forward]. unfold SetCode, put_at. rewrite length_le.
  replace (Nat.leb (OffsetCode + 2) (length b)) with false by (symmetry; apply Nat.leb_gt; unfold OffsetCode; lia). reflexivity.
Qed.
Print Assumptions short_message_crashes_refuted.

Definition ex_m (x : Z) : bytes := [0; 0; 0; 0; 9; 9; 3; x; 1; 2; 3].
Definition ex_stream : list received := [Msg (ex_m 0); Msg (ex_m 1); Msg (ex_m 2); Eof].
Example ex_stream_ok : Forall packet_like (messages ex_stream).
Proof. repeat constructor; try (cbv; lia); try discriminate. Qed.
Example ex_forward :
  receive_forward 5 [true; false] [] 0 ex_stream =
  Fwd [[0; 0; 0; 0; 5; 0; 3; 0; 1; 2; 3]]
      (Some ([11; 0; 0; 0; 5; 0; 3; 1; 1; 2; 3] ++ [11; 0; 0; 0; 9; 9; 3; 2; 1; 2; 3])) 0 Done.
Proof. reflexivity. Qed.
Definition ex_p (x : Z) : bytes := [9; 0; 0; 0; 5; 0; 3; 0; x].
Example ex_handle :
  handle_all [(ex_p 0, Rpc true true false); (ex_p 1, Rpc false false true); (ex_p 2, Rpc true true true)] (Handled [] [] false) =
  Handled [ex_p 0] (ex_p 1 ++ ex_p 2) false.
Proof. reflexivity. Qed.
Example ex_handle_ok : Forall (fun x => sized (fst x)) [(ex_p 0, Rpc true true false); (ex_p 1, Rpc false false true)].
Proof. repeat constructor; cbv; try lia. Qed.
