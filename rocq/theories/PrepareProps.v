(* PrepareProps.v: files created in advance (C116). *)
From Coq Require Import Permutation.
From Verif Require Import BaseLemmas Prepare.

(* Files in results, and in what calls have returned *)
Definition files (l : list result) : list nat := flat_map close_ok l.
Definition returned (l : list (option result)) : list result := flat_map (fun o => match o with Some r => [r] | None => [] end) l.
Definition held_list (o : option result) : list result := match o with Some r => [r] | None => [] end.
Inductive sublist {A} : list A -> list A -> Prop :=
| sub_nil l : sublist [] l
| sub_skip x a b : sublist a b -> sublist a (x :: b)
| sub_take x a b : sublist a b -> sublist (x :: a) (x :: b).

Lemma sublist_refl {A} (l : list A) : sublist l l.
Proof. induction l; now constructor. Qed.
Lemma sublist_app {A} (a b c d : list A) : sublist a b -> sublist c d -> sublist (a ++ c) (b ++ d).
Proof.
  intros H1 H2. induction H1 as [l|x a b H IH|x a b H IH]; cbn [app].
  - induction l as [|y l IHl]; cbn [app]; [exact H2|now constructor].
  - now constructor.
  - now constructor.
Qed.
Lemma sublist_drop {A} (a b : list A) x (c : list A) : sublist (a ++ x :: b) c -> sublist (a ++ b) c.
Proof.
  revert a b x. induction c as [|y c IH]; intros a b x H.
  - destruct a; inversion H.
  - inversion H as [l E1|z a' b' H' E1 E2|z a' b' H' E1 E2]; subst.
    + destruct a; discriminate.
    + constructor. eapply IH; eauto.
    + destruct a as [|w a]; cbn [app] in *; injection E1 as -> ->; [now constructor|]. apply sub_take. eapply IH; eauto.
Qed.

Lemma files_app a b : files (a ++ b) = files a ++ files b.
Proof. unfold files. apply flat_map_app. Qed.
Lemma returned_app a b : returned (a ++ b) = returned a ++ returned b.
Proof. unfold returned. apply flat_map_app. Qed.

Record pinv (cap : nat) (s : prep) : Prop := {
  pi_all : Permutation (files (p_made s)) (files (returned (p_given s)) ++ p_closed s ++ files (p_queue s) ++ files (held_list (p_held s)));
  pi_order : sublist (returned (p_given s) ++ p_queue s ++ held_list (p_held s)) (p_made s);
  pi_number : map fst (p_made s) = seq 0 (length (p_made s));
  pi_cap : (length (p_queue s) <= cap)%nat;
  pi_held : p_phase s <> Working -> p_held s = None;
  pi_gone : p_phase s = Gone -> p_queue s = [];
  pi_canceled : p_phase s <> Working -> p_canceled s = true }.

Lemma perm_move {A} (a b c d : list A) : Permutation (a ++ b ++ c ++ d) (a ++ (b ++ c) ++ d).
Proof. now rewrite <- (app_assoc b c d). Qed.

Lemma pinv_step cap x s : pinv cap s -> pinv cap (pact cap x s).
Proof.
  intros [A O N C H G K]. destruct s as [made held queue ph c given closed]. cbn [p_made p_held p_queue p_phase p_canceled p_given p_closed] in *.
  assert (Same : pinv cap (Prep made held queue ph c given closed)) by (constructor; cbn; assumption).
  destruct x; unfold pact.
  - destruct ph, held as [r|]; try exact Same. constructor; cbn [p_made p_held p_queue p_phase p_canceled p_given p_closed held_list]; auto; try discriminate; try congruence.
    + rewrite files_app. cbn [held_list files flat_map] in A |- *. rewrite ?app_nil_r in A. rewrite ?app_nil_r. rewrite !app_assoc. apply Permutation_app_tail. rewrite <- app_assoc. exact A.
    + cbn [held_list] in O. rewrite app_nil_r in O. rewrite app_assoc. apply sublist_app; [exact O|apply sublist_refl].
    + rewrite map_app, app_length. cbn [length]. rewrite seq_app. apply (f_equal2 (@app nat)); [exact N|reflexivity].
  - destruct ph, held as [r|]; try exact Same. destruct (Nat.ltb_spec (length queue) cap); [|exact Same].
    constructor; cbn [p_made p_held p_queue p_phase p_canceled p_given p_closed held_list]; auto; try discriminate; try congruence.
    + rewrite files_app. cbn [held_list files flat_map] in A |- *. rewrite ?app_nil_r in A. rewrite ?app_nil_r. exact A.
    + cbn [held_list] in O. rewrite app_nil_r. exact O.
    + rewrite app_length. cbn. lia.
  - destruct ph, held as [r|]; try exact Same. destruct queue as [|q queue]; try exact Same.
    constructor; cbn [p_made p_held p_queue p_phase p_canceled p_given p_closed held_list]; auto; try discriminate; try congruence.
    + rewrite returned_app, files_app. cbn [held_list files flat_map returned app] in A |- *. rewrite ?app_nil_r in A. rewrite ?app_nil_r.
      etransitivity; [exact A|]. rewrite <- !app_assoc. apply Permutation_app_head. apply Permutation_app_comm.
    + rewrite returned_app. cbn [returned flat_map app held_list] in O |- *. rewrite !app_nil_r. exact O.
  - constructor; cbn [p_made p_held p_queue p_phase p_canceled p_given p_closed held_list]; auto.
  - destruct ph, held as [r|]; try exact Same. destruct c; try exact Same.
    constructor; cbn [p_made p_held p_queue p_phase p_canceled p_given p_closed held_list]; auto; try discriminate; try congruence.
    + cbn [held_list files flat_map] in A |- *. rewrite ?app_nil_r in A. rewrite ?app_nil_r. etransitivity; [exact A|]. apply Permutation_app_head.
      rewrite <- app_assoc. apply Permutation_app_head. apply Permutation_app_comm.
    + cbn [held_list] in O. rewrite app_nil_r. rewrite app_assoc in O. apply (sublist_drop _ [] r) in O. now rewrite app_nil_r in O.
  - destruct ph; try exact Same. assert (held = None) as -> by (apply H; discriminate). destruct queue as [|q queue];
      constructor; cbn [p_made p_held p_queue p_phase p_canceled p_given p_closed held_list]; auto; try discriminate; try congruence;
      try (intros _; apply K; discriminate).
    + cbn [held_list files flat_map] in A |- *. rewrite ?app_nil_r in A. rewrite ?app_nil_r. etransitivity; [exact A|]. apply Permutation_app_head.
      rewrite <- app_assoc. reflexivity.
    + cbn [held_list] in O |- *. rewrite app_nil_r in O. rewrite app_nil_r. cbn [app] in O. now apply sublist_drop in O.
    + cbn [length] in C. lia.
  - destruct queue as [|q queue].
    + destruct ph; try exact Same; constructor; cbn [p_made p_held p_queue p_phase p_canceled p_given p_closed held_list]; auto;
        rewrite ?returned_app; cbn [returned flat_map]; rewrite ?app_nil_r; auto.
    + constructor; cbn [p_made p_held p_queue p_phase p_canceled p_given p_closed held_list]; auto; try congruence.
      * rewrite returned_app, files_app. cbn [held_list files flat_map returned app] in A |- *. rewrite ?app_nil_r in A. rewrite ?app_nil_r.
        etransitivity; [exact A|]. rewrite <- !app_assoc. apply Permutation_app_head. rewrite !app_assoc. apply Permutation_app_tail. apply Permutation_app_tail.
        apply Permutation_app_comm.
      * rewrite returned_app. cbn [returned flat_map app] in O |- *. rewrite <- app_assoc. exact O.
      * cbn [length] in C. lia.
      * intros E. specialize (G E). discriminate.
Qed.

Lemma pinv_run cap l : pinv cap (prun cap l prep_init).
Proof.
  induction l as [|x l IH] using rev_ind.
  - constructor; cbn; auto; try constructor; try lia; try discriminate; try congruence.
  - unfold prun in *. rewrite fold_left_app. cbn [fold_left]. now apply pinv_step.
Qed.

Lemma files_seq made n : map fst made = seq n (length made) -> NoDup (files made).
Proof.
  assert (G : forall made n, map fst made = seq n (length made) -> NoDup (files made) /\ Forall (fun x => (n <= x)%nat) (files made)).
  { clear. induction made as [|[a ok] made IH]; intros n E; [split; constructor|]. cbn [map length seq fst] in E. injection E as -> E.
    destruct (IH (S n) E) as [A B]. unfold files. cbn [flat_map close_ok fst snd].
    assert (B' : Forall (fun x => (n <= x)%nat) (files made)) by (eapply Forall_impl; [|exact B]; cbn; intros; lia).
    destruct ok; cbn [app].
    - split; [constructor; [|exact A]|constructor; auto]. intros I. rewrite Forall_forall in B. specialize (B n I). lia.
    - split; assumption. }
  intros E. now apply (G made n).
Qed.

(* For all schedules, numbers of callers and failures: a file goes to at most one caller, and it's not closed then nor closed twice;
   callers get results in the order of creation; and at most bufsize (cap + 1) files wait. *)
Theorem prepared_file_has_one_owner cap l :
  let s := prun cap l prep_init in
  NoDup (files (returned (p_given s)) ++ p_closed s) /\
  sublist (returned (p_given s)) (p_made s) /\ map fst (p_made s) = seq 0 (length (p_made s)) /\
  (length (files (p_made s)) <= length (files (returned (p_given s))) + length (p_closed s) + (cap + 1))%nat.
Proof.
  cbn zeta. destruct (pinv_run cap l) as [A O N C H G K]. set (s := prun cap l prep_init) in *.
  pose proof (Permutation_NoDup A (files_seq _ _ N)) as ND. rewrite app_assoc in ND. split; [|split; [|split]].
  - clear -ND. induction (files (returned (p_given s)) ++ p_closed s) as [|x t IH]; [constructor|]. cbn [app] in ND. inversion ND as [|? ? I ND']; subst.
    constructor; [|auto]. intros X. apply I. apply in_or_app. now left.
  - clear -O. revert O. generalize (p_queue s ++ held_list (p_held s)) as z. generalize (returned (p_given s)) as a. intros a z.
    revert a. induction z as [|x z IH]; intros a O; [now rewrite app_nil_r in O|]. apply IH. now apply sublist_drop in O.
  - exact N.
  - apply Permutation_length in A. rewrite !app_length in A.
    assert (Q : forall q, (length (files q) <= length q)%nat).
    { induction q as [|[a []] q IH]; unfold files in *; cbn in *; lia. }
    pose proof (Q (p_queue s)). assert (length (files (held_list (p_held s))) <= 1)%nat by (destruct (p_held s) as [[a []]|]; cbn; lia). lia.
Qed.
Print Assumptions prepared_file_has_one_owner.

(* Once the goroutine has ended, every file which was created has been given to a caller or closed; it ends only if canceled, and nothing
   is created afterwards. *)
Theorem prepared_files_do_not_leak cap l l' :
  let s := prun cap l prep_init in
  p_phase s = Gone ->
  p_canceled s = true /\ Permutation (files (p_made s)) (files (returned (p_given s)) ++ p_closed s) /\
  p_made (prun cap l' s) = p_made s /\ p_closed (prun cap l' s) = p_closed s.
Proof.
  cbn zeta. destruct (pinv_run cap l) as [A O N C H G K]. set (s := prun cap l prep_init) in *. intros E.
  rewrite (H ltac:(congruence)), (G E) in A. cbn in A. rewrite app_nil_r in A. split; [apply K; congruence|]. split; [exact A|].
  assert (Q : forall l' s, p_phase s = Gone -> p_queue s = [] -> p_made (prun cap l' s) = p_made s /\ p_closed (prun cap l' s) = p_closed s).
  { clear. induction l' as [|x l' IH]; intros s E Q; [split; reflexivity|]. cbn [prun fold_left].
    destruct s as [made held queue ph c given closed]. cbn [p_phase p_queue] in *. subst ph queue.
    destruct x; cbn [pact]; 
      match goal with |- p_made (fold_left _ l' ?s) = _ /\ _ => destruct (IH s eq_refl eq_refl) as [X Y]; split; [exact X|exact Y] end. }
  apply Q; auto.
Qed.
Print Assumptions prepared_files_do_not_leak.

(* After cancellation callers don't wait for ever: until it has ended, the goroutine can go on by itself, and then every call returns at once. *)
Theorem prepared_calls_return_after_cancel cap l :
  let s := prun cap l prep_init in
  p_canceled s = true ->
  (exists l', (length l' <= length (p_queue s) + 3)%nat /\ ~ In PGet l' /\ ~ In PHand l' /\ p_phase (prun cap l' s) = Gone) /\
  (p_phase s <> Working -> length (p_given (pact cap PGet s)) = S (length (p_given s))).
Proof.
  cbn zeta. destruct (pinv_run cap l) as [A O N C H G K]. set (s := prun cap l prep_init) in *. intros E. split.
  - assert (D : forall q made c given closed held, p_phase (prun cap (repeat PDrain (S (length q))) (Prep made held q Draining c given closed)) = Gone).
    { clear. induction q as [|r q IH]; intros made c given closed held; [reflexivity|]. cbn [length]. cbn [repeat prun fold_left pact]. apply IH. }
    assert (NI : forall x n, x <> PDrain -> ~ In x (repeat PDrain n)) by (intros x n X I; apply repeat_spec in I; congruence).
    destruct s as [made held queue ph c given closed]. cbn [p_phase p_queue p_canceled p_held] in *. subst c. destruct ph.
    + destruct held as [r|].
      * exists (PStop :: repeat PDrain (S (length queue))). repeat split.
        -- cbn [length]. rewrite repeat_length. lia.
        -- intros [X|X]; [discriminate|]. revert X. apply NI. discriminate.
        -- intros [X|X]; [discriminate|]. revert X. apply NI. discriminate.
        -- cbn [prun fold_left]. cbn [pact]. apply D.
      * exists (PCreate true :: PStop :: repeat PDrain (S (length queue))). repeat split.
        -- cbn [length]. rewrite repeat_length. lia.
        -- intros [X|[X|X]]; try discriminate. revert X. apply NI. discriminate.
        -- intros [X|[X|X]]; try discriminate. revert X. apply NI. discriminate.
        -- cbn [prun fold_left]. cbn [pact]. apply D.
    + exists (repeat PDrain (S (length queue))). repeat split.
      * rewrite repeat_length. lia.
      * apply NI. discriminate.
      * apply NI. discriminate.
      * apply D.
    + exists []. repeat split; auto. cbn. lia.
  - intros W. destruct s as [made held queue ph c given closed]. cbn [p_phase p_given] in *. cbn [pact].
    destruct queue as [|r q]; [destruct ph; [congruence|..]|]; cbn [p_given]; rewrite app_length; cbn; lia.
Qed.
Print Assumptions prepared_calls_return_after_cancel.

(* Buffer sizes: instances' are corrected, programs' crash. *)
Theorem prepare_instances_any_size bufsize : exists n, prepare_instances bufsize = Ok n /\ Z.of_nat n + 1 = Z.max 1 bufsize.
Proof.
  unfold prepare_instances. destruct (Z.leb_spec bufsize 0).
  - exists 0%nat. split; [reflexivity|lia].
  - replace (bufsize - 1 <? 0) with false by lia. eexists. split; [reflexivity|lia].
Qed.
Print Assumptions prepare_instances_any_size.

Theorem prepare_programs_size_refuted bufsize : bufsize <= 0 -> prepare_programs bufsize = Panic.
Proof. intros H. unfold prepare_programs. replace (bufsize - 1 <? 0) with true by lia. reflexivity. Qed.
Print Assumptions prepare_programs_size_refuted.

Example ex_prepare :
  let s := prun 1 [PCreate true; PHand; PCreate true; PSend; PCreate false; PGet; PSend; PCreate true; PCancel; PStop; PGet; PDrain; PGet; PGet] prep_init in
  (p_given s, p_closed s, p_phase s) = ([Some (0, true); Some (1, true); Some (2, false); None; None], [3], Gone)%nat.
Proof. reflexivity. Qed.
