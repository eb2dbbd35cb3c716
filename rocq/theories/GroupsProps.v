(* GroupsProps.v: programs with access to the system run in their users' slices, and others don't (C142). *)
From Verif Require Import Groups CredsSpec ScopeProps.

(* ---- Specification ---- *)
(* The control group of a user's slice: the directory for the number n, in the canonical form. *)
Definition canonical (s : bytes) (n : Z) : Prop := numeral s n /\ (hd 0 s = 48 -> s = [48]).
Definition user_slice (n : Z) (d : bytes) : Prop :=
  exists s, canonical s n /\ d = prefix_dir ++ [47; 117; 115; 101; 114; 46; 115; 108; 105; 99; 101; 47; 117; 115; 101; 114; 45] ++ s ++ [46; 115; 108; 105; 99; 101].

(* ---- Numbers ---- *)
Lemma parse_digits_spec s : forall a, parse_digits a s = (if forallb (fun c => (48 <=? c) && (c <=? 57)) s then Some (fold_left (fun a c => 10 * a + (c - 48)) s a) else None).
Proof. induction s as [|c s IH]; intros a; cbn [parse_digits forallb fold_left]; [reflexivity|]. destruct ((48 <=? c) && (c <=? 57)); cbn [andb]; [apply IH|reflexivity]. Qed.
Lemma forallb_digit s : forallb (fun c => (48 <=? c) && (c <=? 57)) s = true <-> Forall digit s.
Proof. rewrite forallb_forall, Forall_forall. unfold digit. split; intros H x I; specialize (H x I); lia. Qed.
Lemma parse_uint31_spec s n : parse_uint31 s = Some n <-> numeral s n /\ n < 2 ^ 31.
Proof.
  unfold parse_uint31, numeral. destruct s as [|c s]; [split; [discriminate|intros [[N _] _]; destruct (N eq_refl)]|].
  rewrite parse_digits_spec. destruct (forallb _ (c :: s)) eqn:F.
  - apply forallb_digit in F. set (v := fold_left _ _ 0). destruct (Z.ltb_spec v (2 ^ 31)).
    + split; [intros X; injection X as <-; repeat split; auto; discriminate|]. intros [(_ & _ & E) _]. now rewrite E.
    + split; [discriminate|]. intros [(_ & _ & E) L]. lia.
  - split; [discriminate|]. intros [(_ & D & _) _]. apply forallb_digit in D. congruence.
Qed.
Lemma fold_app s c a : fold_left (fun a c => 10 * a + (c - 48)) (s ++ [c]) a = 10 * fold_left (fun a c => 10 * a + (c - 48)) s a + (c - 48).
Proof. now rewrite fold_left_app. Qed.
Lemma digits_spec fuel : forall n acc, 0 <= n < 10 ^ Z.of_nat fuel -> exists s, digits fuel n acc = s ++ acc /\ (n < 10 ^ Z.of_nat fuel -> (0 < fuel)%nat -> canonical s n).
Proof.
  induction fuel as [|k IH]; intros n acc H.
  - exists []. split; [reflexivity|lia].
  - cbn [digits]. pose proof (Z.div_mod n 10 ltac:(lia)) as DM. pose proof (Z.mod_pos_bound n 10 ltac:(lia)) as MB.
    destruct (Z.ltb_spec n 10) as [L|L].
    + exists [48 + n mod 10]. split; [reflexivity|]. intros _ _. assert (n mod 10 = n) by (apply Z.mod_small; lia).
      split; [|cbn; intros ->; reflexivity]. split; [discriminate|]. split; [repeat constructor; unfold digit; lia|]. cbn [fold_left]. lia.
    + assert (P : 10 ^ Z.of_nat (S k) = 10 * 10 ^ Z.of_nat k) by (rewrite Nat2Z.inj_succ, Z.pow_succ_r by lia; reflexivity).
      assert (K : (0 < k)%nat). { destruct k; [cbn in *; lia|lia]. }
      assert (B : 0 <= n / 10 < 10 ^ Z.of_nat k) by (split; [apply Z.div_pos; lia|apply Z.div_lt_upper_bound; lia]).
      destruct (IH (n / 10) ((48 + n mod 10) :: acc) B) as (s & E & C). specialize (C (proj2 B) K). exists (s ++ [48 + n mod 10]).
      rewrite E, <- app_assoc. split; [reflexivity|]. intros _ _. destruct C as [(N & D & V) Z0]. split; [split; [|split]|].
      * destruct s; discriminate.
      * apply Forall_app. split; [exact D|]. repeat constructor; unfold digit; lia.
      * rewrite fold_app, V. lia.
      * destruct s as [|c s]; [destruct (N eq_refl)|]. cbn [hd app]. cbn [hd] in Z0. intros C0. specialize (Z0 C0). injection Z0 as -> ->. cbn in V. lia.
Qed.
Lemma format_canonical n : 0 <= n < 2 ^ 31 -> canonical (format_d n) n.
Proof.
  intros H. assert (B : n < 10 ^ Z.of_nat 20) by (change (10 ^ Z.of_nat 20) with 100000000000000000000; lia).
  destruct (digits_spec 20 n [] ltac:(split; [lia|exact B])) as (s & E & C). unfold format_d. rewrite E, app_nil_r. apply C; [exact B|lia].
Qed.
Lemma fold_nonneg s : Forall digit s -> forall a, 0 <= a -> a <= fold_left (fun a c => 10 * a + (c - 48)) s a.
Proof. induction 1 as [|c s D F IH]; intros a A; cbn [fold_left]; [lia|]. unfold digit in D. specialize (IH (10 * a + (c - 48)) ltac:(lia)). lia. Qed.
Lemma numeral_nonneg s n : numeral s n -> 0 <= n.
Proof. intros (_ & D & <-). now apply fold_nonneg. Qed.
Lemma numeral_val s n m : numeral s n -> numeral s m -> n = m.
Proof. intros (_ & _ & <-) (_ & _ & <-). reflexivity. Qed.
Lemma slice_dir n : 0 <= n < 2 ^ 31 -> user_slice n (prefix_dir ++ [47] ++ slice_name n).
Proof. intros H. exists (format_d n). split; [now apply format_canonical|reflexivity]. Qed.

(* Different users have different slices. *)
Theorem slices_distinct : forall n m d, user_slice n d -> user_slice m d -> n = m.
Proof.
  intros n m d (s & [N _] & ->) (t & [M _] & E). apply app_inv_head in E. cbn [app] in E. injection E as E. apply app_inv_tail in E. subst t. exact (numeral_val _ _ _ N M).
Qed.

(* ---- Claims ---- *)
(* A program's process is in its user's slice, if the request has access to the system, or else in the group that was configured (or the executor's). *)
Definition placed (default : nat -> option bytes) (scope : option (list str)) (uid : bytes) (w : place) : Prop :=
  if ContextContains scope system_scope && negb (seqb uid [])
  then exists n d, numeral uid n /\ user_slice n d /\ w = Dir d
  else exists e, w = match default e with Some d => Dir d | None => Own e end.
Theorem process_group : forall m exists_ choice other pri scope default r, server_process (Ssh m) exists_ choice other pri scope = Ok r ->
  exists uid, kget m (raw pri) = Some uid /\ placed default scope uid (clone_into default r).
Proof.
  intros m ex choice other pri scope default r H.
  assert (G : forall k, (do u <- match kget m k with None => Err | Some uid => Ok (if ContextContains scope system_scope then Some uid else None) end;
     userGrouper_NewProcess ex choice other (match u with Some uid => uid | None => [] end)) = Ok r ->
     exists uid, kget m k = Some uid /\ placed default scope uid (clone_into default r)).
  { clear H. intros k H. destruct (kget m k) as [uid|] eqn:K; [|discriminate]. exists uid. split; [reflexivity|]. unfold placed. cbn [bind] in H.
    destruct (ContextContains scope system_scope); cbn [andb].
    - unfold userGrouper_NewProcess in H. destruct uid as [|c uid]; cbn [seqb negb].
      + injection H as <-. exists other. unfold clone_into. cbn. destruct (default other); reflexivity.
      + destruct (parse_uint31 (c :: uid)) as [n|] eqn:P; [|discriminate]. apply parse_uint31_spec in P as [N B].
        unfold OpenCgroupFD in H. destruct (ex _); [|discriminate]. injection H as <-. exists n, (prefix_dir ++ [47] ++ slice_name n).
        pose proof (numeral_nonneg _ _ N). split; [exact N|]. split; [apply slice_dir; lia|reflexivity].
    - cbn [userGrouper_NewProcess] in H. injection H as <-. exists other. unfold clone_into. cbn. destruct (default other); reflexivity. }
  unfold server_process, authorized_user, Authorize in H. destruct pri as [| |k]; [discriminate| |]; apply G.
  1: destruct (kget m (raw PLocal)); exact H. destruct (kget m (raw (PKey k))); exact H.
Qed.
(* It is made if the slice exists. *)
Theorem process_group_made : forall m exists_ choice other pri scope uid n, pri <> PNone -> kget m (raw pri) = Some uid -> numeral uid n -> n < 2 ^ 31 ->
  (forall d, user_slice n d -> exists_ d = true) -> exists r, server_process (Ssh m) exists_ choice other pri scope = Ok r.
Proof.
  intros m ex choice other pri scope uid n NP K N B E. unfold server_process, authorized_user, Authorize. pose proof (numeral_nonneg _ _ N) as NN.
  assert (X : exists r, userGrouper_NewProcess ex choice other uid = Ok r).
  { unfold userGrouper_NewProcess. destruct uid as [|c uid]; [eauto|]. rewrite (proj2 (parse_uint31_spec _ _) (conj N B)). unfold OpenCgroupFD.
    rewrite E by (apply slice_dir; lia). cbn [bind]. eauto. }
  destruct pri as [| |k]; [destruct (NP eq_refl)| |]; rewrite K; cbn [bind]; destruct (ContextContains scope system_scope); try exact X; cbn; eauto.
Qed.
(* A user id that isn't a number doesn't get a process with access to the system, nor does a user whose slice doesn't exist (who isn't logged in). *)
Theorem process_group_refused : forall m exists_ choice other pri scope uid, pri <> PNone -> kget m (raw pri) = Some uid -> uid <> [] ->
  ContextContains scope system_scope = true -> (forall n d, numeral uid n -> user_slice n d -> exists_ d = false) ->
  server_process (Ssh m) exists_ choice other pri scope = Err.
Proof.
  intros m ex choice other pri scope uid NP K NE C E. unfold server_process, authorized_user, Authorize.
  assert (X : userGrouper_NewProcess ex choice other uid = Err).
  { unfold userGrouper_NewProcess. destruct uid as [|c uid]; [destruct (NE eq_refl)|]. destruct (parse_uint31 (c :: uid)) as [n|] eqn:P; [|reflexivity].
    apply parse_uint31_spec in P as [N B]. unfold OpenCgroupFD. pose proof (numeral_nonneg _ _ N). rewrite (E n) by (auto; apply slice_dir; lia). reflexivity. }
  destruct pri as [| |k]; [destruct (NP eq_refl)| |]; rewrite K, C; exact X.
Qed.
(* Without authentication by keys nobody's slice is used. *)
Theorem public_group : forall exists_ choice other pri scope default r, server_process Public exists_ choice other pri scope = Ok r ->
  exists e, clone_into default r = match default e with Some d => Dir d | None => Own e end.
Proof. intros ex choice other pri scope default r H. injection H as <-. exists other. unfold clone_into. cbn. destruct (default other); reflexivity. Qed.
(* Factories of a group (GroupExecutor): the group that is asked for, or else the factory's own, or else the configured one. *)
Theorem group_executor : forall e own g default,
  clone_into default (GroupExecutor_NewGroupProcess e own g) = match g, own, default e with Some d, _, _ | None, Some d, _ | None, None, Some d => Dir d | _, _, _ => Own e end /\
  GroupExecutor_NewProcess e own = GroupExecutor_NewGroupProcess e own None.
Proof. intros e [o|] [g|] default; unfold clone_into; cbn; destruct (default e); auto. Qed.
Print Assumptions slices_distinct.
Print Assumptions process_group.
Print Assumptions process_group_made.
Print Assumptions process_group_refused.
Print Assumptions public_group.
Print Assumptions group_executor.
(* User 1007's key, with and without access to the system. *)
Example process_group_ex : let m := [(repeat 1 32, [49; 48; 48; 55])] in
  server_process (Ssh m) (fun _ => true) 3 4 (PKey (repeat 1 32)) (Some [system_scope]) = Ok (Request 3 (Some (prefix_dir ++ [47] ++ slice_name 1007))) /\
  server_process (Ssh m) (fun _ => true) 3 4 (PKey (repeat 1 32)) None = Ok (Request 4 None) /\
  format_d 1007 = [49; 48; 48; 55].
Proof. repeat split. Qed.
