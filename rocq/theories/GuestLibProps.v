(* GuestLibProps.v: polling, random bytes, environment, exit and the other functions of the guest library
   (C91-C96). *)
From Verif Require Import GuestLibSpec GuestLib BaseLemmas GuestLibProofs GuestIoProofs GuestPollProofs GuestMiscProofs.

(** ** C91: poll_oneoff *)

(* Subscriptions to descriptors, none to a clock.  There are at most as many events as there are subscriptions.  Each
   is an answer to a subscription, and subscriptions to bad descriptors, and to writing to standard output or error,
   get theirs.  An event about the Gate descriptor means that the kernel has reported it ready.  The events are in the
   output array and their number where it should be; nothing else has changed.  If the wait ends otherwise, the
   process has exited or it is waiting for the peer. *)
Theorem poll_oneoff_events k n s sub out np :
  guest_ok s -> is_u32 sub -> is_u32 out -> is_u32 np -> (n <= k)%nat -> Z.of_nat n < 2 ^ 32 ->
  sub + 56 * Z.of_nat n <= mem_size s -> out + 32 * Z.of_nat n <= mem_size s -> np + 4 <= mem_size s ->
  apart sub (56 * Z.of_nat n) out (32 * Z.of_nat n) ->
  let vs := subs (mem s) sub n in
  Forall (fun v => s_type v = 1 \/ s_type v = 2) vs ->
  let (s1, o1) := rt_poll (w_polls (wd s)) (if reads vs then POLLIN else 0) (if writes vs then POLLOUT else 0) s in
  let (s', o) := invoke k lib_poll_oneoff [sub; out; Z.of_nat n; np] s in
  pages s' = pages s /\ wd s' = wd s1 /\
  exists evs, len evs <= len vs /\ Forall (fun e => exists v, In v vs /\ answers e v) evs /\
    (forall v, In v vs -> s_fd v <> 0 -> s_fd v <> 4 -> s_fd v < 3 /\ s_type v = 1 \/ exists e, In e evs /\ answers e v) /\
    match o1 with
    | Next (Some f) => o = Ret (Some ESUCCESS) /\ mem s' = put_bytes (put_events (mem s) out evs) np (le 4 (len evs)) /\
        (forall u t, In (Ready u t 65536) evs -> Z.land f (if t =? 1 then POLLIN else POLLOUT) <> 0)
    | _ => o = o1 /\ mem s' = put_events (mem s) out evs
    end.
Proof. apply poll_oneoff_spec. Qed.
Print Assumptions poll_oneoff_events.

(* Subscriptions at 0: reading from Gate (user data 7), writing to standard output (8) and to descriptor 9 (9).
   Output array at 256. *)
Definition sub_bytes (u t fd : Z) : bytes := le 8 u ++ le 8 t ++ le 4 fd ++ repeat 0 36.
Definition poll_mem (l : list (Z * Z * Z)) : Z -> Z :=
  put_bytes (put_bytes (fun _ => 0) 0 (concat (map (fun x => let '(u, t, fd) := x in sub_bytes u t fd) l))) 256 (repeat 255 128).
Definition poll_world (polls : list poll_answer) : world := World [] [] [] [] polls [] [] [] [] [].
Definition poll_st l polls : st := St (poll_mem l) 1 [] (poll_world polls).
Definition poll_subs : list (Z * Z * Z) := [(7, 1, 4); (8, 2, 1); (9, 2, 9)].
Lemma poll_mem_ok l a : 0 <= poll_mem l a < 256.
Proof.
  unfold poll_mem. apply put_bytes_ok; [apply put_bytes_ok; [intros; lia|]|].
  - induction l as [|[[u t] fd] l IH]; cbn [map concat]; [constructor|]. apply Forall_app. split; [|exact IH].
    unfold sub_bytes. repeat (apply Forall_app; split); try apply le_ok. apply Forall_forall. intros x Hx. apply repeat_spec in Hx. lia.
  - apply Forall_forall. intros x Hx. apply repeat_spec in Hx. lia.
Qed.
Lemma poll_st_ok l polls : guest_ok (poll_st l polls).
Proof. split; [apply poll_mem_ok|]. cbn. split; [lia|]. repeat split; constructor. Qed.
Example poll_oneoff_example :
  let (s', o) := invoke 3 lib_poll_oneoff [0; 256; 3; 200] (poll_st poll_subs [Revents 0 POLLOUT; Revents POLLIN 0]) in
  (o, bytes_at (mem s') 200 4, map (fun i => (u64_at (mem s') (256 + 32 * i), u16_at (mem s') (264 + 32 * i), mem s' (266 + 32 * i))) [0; 1; 2]) =
  (Ret (Some 0), [3; 0; 0; 0], [(8, 0, 2); (9, 8, 255); (7, 0, 1)]).
Proof. vm_compute. reflexivity. Qed.
Example poll_oneoff_hypotheses : guest_ok (poll_st poll_subs [Revents POLLIN 0]) /\ subs (poll_mem poll_subs) 0 3 = [Sub 7 1 4; Sub 8 2 1; Sub 9 2 9].
Proof. split; [apply poll_st_ok | vm_compute; reflexivity]. Qed.

(* A subscription that is ready from the start doesn't make the function return: it waits for the peer. *)
Theorem poll_oneoff_returns_refuted : ~ (forall k n s sub out np,
  guest_ok s -> is_u32 sub -> is_u32 out -> is_u32 np -> (n <= k)%nat -> Z.of_nat n < 2 ^ 32 ->
  sub + 56 * Z.of_nat n <= mem_size s -> out + 32 * Z.of_nat n <= mem_size s -> np + 4 <= mem_size s ->
  apart sub (56 * Z.of_nat n) out (32 * Z.of_nat n) ->
  Forall (fun v => s_type v = 1 \/ s_type v = 2) (subs (mem s) sub n) ->
  (exists v, In v (subs (mem s) sub n) /\ (s_fd v = 1 \/ s_fd v = 2) /\ s_type v = 2) ->
  let (s', o) := invoke k lib_poll_oneoff [sub; out; Z.of_nat n; np] s in o <> Blocked RtPoll).
Proof.
  intros H. specialize (H 1%nat 1%nat (poll_st [(8, 2, 1)] []) 0 256 200).
  assert (U : forall x, 0 <= x <= 256 -> is_u32 x) by (unfold is_u32; lia).
  assert (E : subs (mem (poll_st [(8, 2, 1)] [])) 0 1 = [Sub 8 2 1]) by (vm_compute; reflexivity).
  rewrite E in H.
  specialize (H (poll_st_ok _ _) ltac:(apply U; lia) ltac:(apply U; lia) ltac:(apply U; lia) ltac:(lia) ltac:(cbn; lia) ltac:(vm_compute; congruence)
    ltac:(vm_compute; congruence) ltac:(vm_compute; congruence) ltac:(unfold apart; cbn; lia) ltac:(repeat (apply Forall_cons; [cbn; first [left; reflexivity | right; reflexivity]|]); apply Forall_nil)
    ltac:(exists (Sub 8 2 1); cbn; auto)).
  vm_compute in H. apply H. reflexivity.
Qed.
Print Assumptions poll_oneoff_returns_refuted.

(* The type of an event about a bad descriptor is not stored: what was in memory stays. *)
Theorem poll_oneoff_type_refuted : ~ (forall k n s sub out np,
  guest_ok s -> is_u32 sub -> is_u32 out -> is_u32 np -> (n <= k)%nat -> Z.of_nat n < 2 ^ 32 ->
  sub + 56 * Z.of_nat n <= mem_size s -> out + 32 * Z.of_nat n <= mem_size s -> np + 4 <= mem_size s ->
  apart sub (56 * Z.of_nat n) out (32 * Z.of_nat n) ->
  Forall (fun v => s_type v = 1 \/ s_type v = 2) (subs (mem s) sub n) ->
  let (s', o) := invoke k lib_poll_oneoff [sub; out; Z.of_nat n; np] s in
  o = Ret (Some 0) -> 1 <= u32_at (mem s') np ->
  exists v, In v (subs (mem s) sub n) /\ u64_at (mem s') out = s_user v /\ mem s' (out + 10) = s_type v).
Proof.
  intros H. specialize (H 2%nat 2%nat (poll_st [(9, 2, 9); (7, 1, 4)] [Revents POLLIN 0]) 0 256 200).
  assert (U : forall x, 0 <= x <= 256 -> is_u32 x) by (unfold is_u32; lia).
  assert (E : subs (mem (poll_st [(9, 2, 9); (7, 1, 4)] [Revents POLLIN 0])) 0 2 = [Sub 9 2 9; Sub 7 1 4]) by (vm_compute; reflexivity).
  rewrite E in H.
  specialize (H (poll_st_ok _ _) ltac:(clear H; apply U; lia) ltac:(clear H; apply U; lia) ltac:(clear H; apply U; lia) ltac:(lia) ltac:(clear H; cbn; lia) ltac:(clear H; vm_compute; discriminate)
    ltac:(clear H; vm_compute; discriminate) ltac:(clear H; vm_compute; discriminate) ltac:(clear H; unfold apart; cbn; lia) ltac:(clear H; repeat (apply Forall_cons; [cbn; first [left; reflexivity | right; reflexivity]|]); apply Forall_nil)).
  destruct (invoke 2 lib_poll_oneoff [0; 256; Z.of_nat 2; 200] (poll_st [(9, 2, 9); (7, 1, 4)] [Revents POLLIN 0])) as [s' o] eqn:EI.
  assert (o = Ret (Some 0) /\ u32_at (mem s') 200 = 2 /\ u64_at (mem s') 256 = 9 /\ mem s' (256 + 10) = 255) as (O1 & O2 & O3 & O4).
  { assert (X : (let (s', o) := invoke 2 lib_poll_oneoff [0; 256; Z.of_nat 2; 200] (poll_st [(9, 2, 9); (7, 1, 4)] [Revents POLLIN 0]) in
      (o, u32_at (mem s') 200, u64_at (mem s') 256, mem s' (256 + 10))) = (Ret (Some 0), 2, 9, 255)) by (vm_compute; reflexivity).
    rewrite EI in X. inversion X. auto. }
  destruct (H O1 ltac:(lia)) as (v & V1 & V2 & V3). rewrite O3 in V2. rewrite O4 in V3.
  destruct V1 as [<- | [<- | []]]; cbn in V3; discriminate V3.
Qed.
Print Assumptions poll_oneoff_type_refuted.

(** ** C92: random_get *)

(* The bytes come from the beginning of the supply, in order, and are not used again.  When the function returns, the
   buffer has been filled; otherwise the supply has been used up and the program is stopped. *)
Theorem random_get_fresh k n s buf :
  guest_ok s -> is_u32 buf -> buf + Z.of_nat n <= mem_size s -> (n + length (w_resumes (wd s)) <= k)%nat ->
  let (s', o) := invoke k lib_random_get [buf; Z.of_nat n] s in
  exists d, draws (wd s) (wd s') d /\ mem s' = put_bytes (mem s) buf d /\ pages s' = pages s /\
    match o with
    | Ret (Some r) => r = ESUCCESS /\ length d = n
    | Exit e => e = 127 /\ (length d < n)%nat /\ supply (wd s') = []
    | _ => False
    end.
Proof.
  intros (Hm & Hp & _ & HR & HS) Hb Hl Hk. destruct s as [m p l w]. unfold mem_size in Hl. cbn [mem pages wd] in *.
  unfold lib_random_get. winit. wstep. cbn [mem pages wd].
  change (Loop (If (Eqz (Get 1)) _ _ :: _)) with (Loop random_body).
  destruct (random_loop p k n m w buf 0) as (b' & n' & v & d & w' & o & E & D & C); auto; [unfold is_u32 in Hb; lia|].
  rewrite E. destruct o; try contradiction; wstep.
  - destruct C as (-> & C). wstep. exists d. cbn [mem pages wd]. change (u32 0) with 0. auto.
  - exists d. cbn [mem pages wd]. auto.
Qed.
Print Assumptions random_get_fresh.

Example random_get_example :
  let s := St (fun _ => 0) 1 [] (World [] [] [] [] [] [] [3; 4] [[]; [5; 6; 7]] [] []) in
  let (s', o) := invoke 5 lib_random_get [10; 3] s in
  (o, bytes_at (mem s') 10 4, supply (wd s'), guest_ok s) = (Ret (Some 0), [3; 4; 5; 0], [6; 7], guest_ok s).
Proof. vm_compute. reflexivity. Qed.

(** ** C93: environment *)

(* "GATE_ABI_VERSION=0", "GATE_FD=4", "GATE_MAX_SEND_SIZE=65536" *)
Definition environment : list bytes :=
  [[71;65;84;69;95;65;66;73;95;86;69;82;83;73;79;78;61;48]; [71;65;84;69;95;70;68;61;52];
   [71;65;84;69;95;77;65;88;95;83;69;78;68;95;83;73;90;69;61;54;53;53;51;54]].

Lemma unle_le4 v : is_u32 v -> unle (le 4 v) = v.
Proof. intros H. unfold is_u32 in H. rewrite unle_le. apply Z.mod_small. change (2 ^ (8 * Z.of_nat 4)) with (2 ^ 32). lia. Qed.
Lemma put_bytes_app m a l l' : put_bytes m a (l ++ l') = put_bytes (put_bytes m a l) (a + len l) l'.
Proof.
  revert m a; induction l; intros; cbn [app put_bytes].
  - unfold len. cbn [length]. rewrite Z.add_0_r. reflexivity.
  - rewrite IHl. f_equal. unfold len. cbn [length]. lia.
Qed.
Lemma bytes_at_put m a l : bytes_at (put_bytes m a l) a (length l) = l.
Proof.
  revert m a; induction l; intros m b; cbn [put_bytes length bytes_at]; [reflexivity|]. f_equal; [|apply IHl].
  rewrite put_bytes_other by lia. rewrite Z.eqb_refl. reflexivity.
Qed.
Lemma bytes_at_put_sub m a l i n : (i + n <= length l)%nat -> bytes_at (put_bytes m a l) (a + Z.of_nat i) n = firstn n (skipn i l).
Proof.
  intros H. assert (E : bytes_at (put_bytes m a l) a (i + n) = firstn (i + n) l).
  { rewrite (bytes_at_firstn _ _ _ _ H), bytes_at_put. reflexivity. }
  rewrite bytes_at_app in E.
  assert (F : skipn i (bytes_at (put_bytes m a l) a i ++ bytes_at (put_bytes m a l) (a + Z.of_nat i) n) = bytes_at (put_bytes m a l) (a + Z.of_nat i) n).
  { rewrite skipn_app, bytes_at_length, Nat.sub_diag. rewrite skipn_all2 by (rewrite bytes_at_length; lia). reflexivity. }
  rewrite <- F, E. rewrite skipn_firstn_comm. f_equal. lia.
Qed.

Theorem environ_sizes k s a b : is_u32 a -> is_u32 b -> a + 4 <= mem_size s -> b + 4 <= mem_size s ->
  let (s', o) := invoke k lib_environ_sizes_get [a; b] s in
  o = Ret (Some ESUCCESS) /\ same_world s s' /\ mem s' = put_bytes (put_bytes (mem s) a (le 4 (len environment))) b (le 4 56).
Proof.
  intros Ha Hb H1 H2. destruct s as [m p l w]. unfold mem_size in *. cbn [pages] in *. unfold lib_environ_sizes_get. winit. wstep. cbn [pages mem wd].
  unfold is_u32 in *. rewrite store_in by lia. wstep. rewrite store_in by lia. wstep. rewrite !Z.add_0_r. repeat split.
Qed.
Print Assumptions environ_sizes.

(* The strings fit in the reported size, they are where the pointers point to, they have the terminating zeros,
   and only the given buffers have been written to. *)
Theorem environ_strings k s env buf : is_u32 env -> is_u32 buf -> 0 <= pages s < 65536 -> env + 12 <= mem_size s -> buf + 56 <= mem_size s -> apart env 12 buf 56 ->
  let (s', o) := invoke k lib_environ_get [env; buf] s in
  o = Ret (Some ESUCCESS) /\ same_world s s' /\
  (forall i str, nth_error environment i = Some str ->
     let p := u32_at (mem s') (env + 4 * Z.of_nat i) in buf <= p /\ p + len str + 1 <= buf + 56 /\ string_at (mem s') p str) /\
  (forall x, (x < env \/ env + 12 <= x) -> (x < buf \/ buf + 56 <= x) -> mem s' x = mem s x).
Proof.
  intros He Hb Hp H1 H2 Hap. destruct s as [m p l w]. unfold mem_size in *. cbn [pages] in *. unfold lib_environ_get. winit. wstep. cbn [pages mem wd].
  unfold is_u32 in *. do 10 (rewrite store_in by lia; wstep). rewrite !Z.add_0_r.
  rewrite (u32_small (buf + 19)), (u32_small (buf + 29)) by (unfold is_u32; lia).
  split; [reflexivity|]. split; [split; reflexivity|]. cbn [mem].
  match goal with |- context [put_bytes (put_bytes (put_bytes ?x env (le 4 buf)) (env + 4) (le 4 (buf + 19))) (env + 8) (le 4 (buf + 29))] => set (mb := x) end.
  set (m' := put_bytes (put_bytes (put_bytes mb env (le 4 buf)) (env + 4) (le 4 (buf + 19))) (env + 8) (le 4 (buf + 29))).
  set (text := le 8 5278853590672490823 ++ le 8 5642809480329909855 ++ le 8 6864985846336991293 ++ le 8 6071211838874141766 ++ le 8 4995441244341362501 ++ le 8 4415034280684504142 ++ le 8 232787359030).
  assert (EB : mb = put_bytes m buf text).
  { unfold text. rewrite !put_bytes_app. rewrite !len_le. unfold mb. change (Z.of_nat 8) with 8.
    rewrite <- (Z.add_assoc buf 8 8). change (8 + 8) with 16. rewrite <- (Z.add_assoc buf 16 8). change (16 + 8) with 24. rewrite <- (Z.add_assoc buf 24 8). change (24 + 8) with 32.
    rewrite <- (Z.add_assoc buf 32 8). change (32 + 8) with 40. rewrite <- (Z.add_assoc buf 40 8). change (40 + 8) with 48. reflexivity. }
  assert (EP : m' = put_bytes mb env (le 4 buf ++ le 4 (buf + 19) ++ le 4 (buf + 29))).
  { unfold m'. rewrite !put_bytes_app, !len_le. change (Z.of_nat 4) with 4. rewrite <- (Z.add_assoc env 4 4). reflexivity. }
  assert (LP : len (le 4 buf ++ le 4 (buf + 19) ++ le 4 (buf + 29)) = 12) by (rewrite !len_app, !len_le; reflexivity).
  assert (LT : len text = 56) by (vm_compute; reflexivity).
  assert (RD : forall i n, (i + n <= 56)%nat -> bytes_at m' (buf + Z.of_nat i) n = firstn n (skipn i text)).
  { intros i n Hin. rewrite EP. rewrite (bytes_at_same mb).
    - rewrite EB. apply bytes_at_put_sub. unfold len in LT. lia.
    - intros x Hx. apply put_bytes_other. rewrite LP. unfold apart in Hap. lia. }
  assert (PT : forall i v, (i <= 2)%nat -> firstn 4 (skipn (4 * i) (le 4 buf ++ le 4 (buf + 19) ++ le 4 (buf + 29))) = le 4 v -> is_u32 v -> u32_at m' (env + 4 * Z.of_nat i) = v).
  { intros i v Hi E V. unfold u32_at. rewrite EP. replace (4 * Z.of_nat i) with (Z.of_nat (4 * i)) by lia.
    rewrite bytes_at_put_sub by (unfold len in LP; lia). rewrite E. apply unle_le4. exact V. }
  split.
  - intros i str. destruct i as [|[|[|i]]]; cbn [nth_error environment]; intros E; [| | |destruct i; discriminate E];
      assert (E2 := f_equal (fun o => match o with Some x => x | None => [] end) E); cbn beta iota in E2; subst str; clear E.
    + cbv zeta. rewrite (PT 0%nat buf); [|lia|reflexivity|unfold is_u32; lia]. split; [lia|]. split; [unfold len; cbn [length]; lia|].
      unfold string_at. replace buf with (buf + Z.of_nat 0) by lia. rewrite RD by (cbn [length]; lia). vm_compute. reflexivity.
    + cbv zeta. rewrite (PT 1%nat (buf + 19)); [|lia|reflexivity|unfold is_u32; lia]. split; [lia|]. split; [unfold len; cbn [length]; lia|].
      unfold string_at. change (buf + 19) with (buf + Z.of_nat 19). rewrite RD by (cbn [length]; lia). vm_compute. reflexivity.
    + cbv zeta. rewrite (PT 2%nat (buf + 29)); [|lia|reflexivity|unfold is_u32; lia]. split; [lia|]. split; [unfold len; cbn [length]; lia|].
      unfold string_at. change (buf + 29) with (buf + Z.of_nat 29). rewrite RD by (cbn [length]; lia). vm_compute. reflexivity.
  - intros x X1 X2. rewrite EP, put_bytes_other by (rewrite LP; exact X1). rewrite EB. apply put_bytes_other. rewrite LT. exact X2.
Qed.
Print Assumptions environ_strings.
Example environ_example :
  let (s', o) := invoke 0 lib_environ_get [0; 100] (St (fun _ => 1) 1 [] (poll_world [])) in
  (o, u32_at (mem s') 4, bytes_at (mem s') 119 10) = (Ret (Some 0), 119, [71;65;84;69;95;70;68;61;52;0]).
Proof. vm_compute. reflexivity. Qed.
(* The descriptor that the environment tells is the one that is used. *)
Theorem fd_number k s : invoke k lib_fd [] s = (set_loc s [], Ret (Some 4)).
Proof. destruct s. unfold lib_fd. winit. wstep. reflexivity. Qed.
Print Assumptions fd_number.
