(* GrpcProofs.v: lemmas about Grpc.v. *)
From Verif Require Import BaseLemmas GrpcSpec.
Local Open Scope Z_scope.

(** ** Keys *)

Lemma krun_app proc a b s : krun proc (a ++ b) s = krun proc b (krun proc a s).
Proof. apply fold_left_app. Qed.

Lemma generated_app a b : generated (a ++ b) = generated a ++ generated b.
Proof. induction a as [|[] a IH]; cbn [generated app]; congruence. Qed.

Lemma count_same (f g : nat -> bool) l : (forall x, In x l -> f x = g x) -> length (filter f l) = length (filter g l).
Proof.
  induction l as [|x l IH]; intros H; [reflexivity|]. cbn [filter].
  rewrite (H x (or_introl eq_refl)).
  specialize (IH (fun y Hy => H y (or_intror Hy))). destruct (g x); cbn [length]; congruence.
Qed.

Lemma count_more (f g : nat -> bool) i l :
  NoDup l -> In i l -> f i = false -> g i = true -> (forall x, x <> i -> f x = g x) ->
  length (filter g l) = S (length (filter f l)).
Proof.
  induction l as [|x l IH]; intros ND Hi Hf Hg H; [destruct Hi|]. inversion ND as [|? ? Hx ND']; subst. cbn [filter].
  destruct (Nat.eq_dec x i) as [-> | N].
  - rewrite Hf, Hg. cbn [length]. f_equal. symmetry. apply count_same. intros y Hy. apply H. congruence.
  - destruct Hi as [-> | Hi]; [congruence|]. rewrite (H x N). specialize (IH ND' Hi Hf Hg H).
    destruct (g x); cbn [length]; congruence.
Qed.

Lemma has_pput t t' f i v x : x <> i -> has_key (Keys t (pput f i v)) x = has_key (Keys t' f) x.
Proof. intros N. unfold has_key, pput. cbn [k_phase]. apply Nat.eqb_neq in N. now rewrite N. Qed.

Lemma has_pput_at t f i v : has_key (Keys t (pput f i v)) i = match v with Have _ => true | _ => false end.
Proof. unfold has_key, pput. cbn [k_phase]. now rewrite Nat.eqb_refl. Qed.

Definition is_have (v : phase) : bool := match v with Have _ => true | _ => false end.

(* How an update of a phase changes a count *)
Lemma holders_put proc t t' f i v n p : (i < n)%nat ->
  holders proc (Keys t (pput f i v)) n p =
  holders proc (Keys t' f) n p +
    (if Nat.eqb (proc i) p then (if is_have v then 1 else 0) - (if is_have (f i) then 1 else 0) else 0).
Proof.
  intros L. unfold holders.
  set (F := fun i0 => has_key (Keys t (pput f i v)) i0 && Nat.eqb (proc i0) p).
  set (G := fun i0 => has_key (Keys t' f) i0 && Nat.eqb (proc i0) p).
  assert (O : forall x, x <> i -> F x = G x) by (intros x N; unfold F, G; now rewrite (has_pput t t' f i v x N)).
  assert (Fi : F i = is_have v && Nat.eqb (proc i) p) by (unfold F; now rewrite has_pput_at).
  assert (Gi : G i = is_have (f i) && Nat.eqb (proc i) p) by reflexivity.
  assert (I : In i (seq 0 n)) by (apply in_seq; lia).
  pose proof (seq_NoDup n 0) as ND.
  destruct (Nat.eqb (proc i) p); rewrite ?Bool.andb_true_r, ?Bool.andb_false_r in Fi, Gi.
  - destruct (is_have v), (is_have (f i)).
    + rewrite (count_same F G); [lia|]. intros x _. destruct (Nat.eq_dec x i) as [-> | N]; [congruence|auto].
    + rewrite (count_more G F i _ ND I Gi Fi) by (intros; symmetry; auto). lia.
    + rewrite (count_more F G i _ ND I Fi Gi) by auto. lia.
    + rewrite (count_same F G); [lia|]. intros x _. destruct (Nat.eq_dec x i) as [-> | N]; [congruence|auto].
  - rewrite (count_same F G); [lia|]. intros x _. destruct (Nat.eq_dec x i) as [-> | N]; [congruence|auto].
Qed.

(* A key belongs to a process *)
Definition owned (proc : nat -> nat) (s : keys) (G : list nat) (k p : nat) : Prop :=
  In k G /\
  (forall q e, k_table s q = Some e -> e_key e = k -> q = p) /\
  (forall i, k_phase s i = Missed k -> proc i = p).

Record kinv (proc : nat -> nat) (n : nat) (s : keys) (G : list nat) : Prop := {
  ki_count : forall p, match k_table s p with
                       | Some e => e_count e = holders proc s n p /\ 1 <= e_count e
                       | None => holders proc s n p = 0 end;
  ki_have : forall i k, k_phase s i = Have k -> exists e, k_table s (proc i) = Some e /\ e_key e = k;
  ki_missed : forall i k, k_phase s i = Missed k -> owned proc s G k (proc i);
  ki_table : forall p e, k_table s p = Some e -> owned proc s G (e_key e) p }.

Lemma tput_at t p e : tput t p e p = e. Proof. unfold tput. now rewrite Nat.eqb_refl. Qed.
Lemma tput_ne t p e x : x <> p -> tput t p e x = t x. Proof. intros N. unfold tput. apply Nat.eqb_neq in N. now rewrite N. Qed.
Lemma pput_at t p e : pput t p e p = e. Proof. unfold pput. now rewrite Nat.eqb_refl. Qed.
Lemma pput_ne t p e x : x <> p -> pput t p e x = t x. Proof. intros N. unfold pput. apply Nat.eqb_neq in N. now rewrite N. Qed.

Lemma owned_step proc n s G x k p : kinv proc n s G -> NoDup (G ++ generated [x]) ->
  owned proc s G k p -> owned proc (kact proc x s) (G ++ generated [x]) k p.
Proof.
  intros I ND (K & T & M). destruct s as [t f].
  assert (K' : In k (G ++ generated [x])) by (apply in_or_app; now left).
  assert (Same : owned proc (Keys t f) (G ++ generated [x]) k p) by (split; [exact K'|split; assumption]).
  assert (Up : forall e v i, t (proc i) = Some e -> (forall k, v <> Missed k) -> forall e', e_key e' = e_key e ->
               owned proc (Keys (tput t (proc i) (Some e')) (pput f i v)) (G ++ generated [x]) k p).
  { intros e v i E V e' E'. split; [exact K'|]. split; cbn [k_table k_phase].
    - intros q e0 H1 H2. destruct (Nat.eq_dec q (proc i)) as [-> | N].
      + rewrite tput_at in H1. injection H1 as <-. apply (T (proc i) e E). congruence.
      + rewrite tput_ne in H1 by exact N. eauto.
    - intros j H. destruct (Nat.eq_dec j i) as [-> | N].
      + rewrite pput_at in H. now destruct (V k).
      + rewrite pput_ne in H by exact N. eauto. }
  destruct x as [i k'|i|i]; unfold kact; cbn [kinst k_table k_phase].
  - destruct (f i) eqn:P; try exact Same. destruct (t (proc i)) as [e|] eqn:E.
    + apply (Up e); [exact E|discriminate|reflexivity].
    + split; [exact K'|]. split; [exact T|]. cbn [k_phase]. intros j H. destruct (Nat.eq_dec j i) as [-> | N].
      * rewrite pput_at in H. injection H as ->. cbn [generated] in ND.
        apply NoDup_remove_2 in ND. rewrite app_nil_r in ND. now destruct (ND K).
      * rewrite pput_ne in H by exact N. eauto.
  - destruct (f i) as [|k0| |] eqn:P; try exact Same. destruct (t (proc i)) as [e|] eqn:E.
    + apply (Up e); [exact E|discriminate|reflexivity].
    + split; [exact K'|]. split; cbn [k_table k_phase].
      * intros q e0 H1 H2. destruct (Nat.eq_dec q (proc i)) as [-> | N].
        -- rewrite tput_at in H1. injection H1 as <-. cbn [e_key] in H2. subst k0. apply M. exact P.
        -- rewrite tput_ne in H1 by exact N. eauto.
      * intros j H. destruct (Nat.eq_dec j i) as [-> | N].
        -- rewrite pput_at in H. discriminate.
        -- rewrite pput_ne in H by exact N. eauto.
  - destruct (f i) as [| |k0|] eqn:P; try exact Same.
    destruct (ki_have _ _ _ _ I i k0 P) as (e & E & _). cbn [k_table] in E. rewrite E.
    destruct (e_count e - 1 =? 0).
    + split; [exact K'|]. split; cbn [k_table k_phase].
      * intros q e0 H1 H2. destruct (Nat.eq_dec q (proc i)) as [-> | N].
        -- rewrite tput_at in H1. discriminate.
        -- rewrite tput_ne in H1 by exact N. eauto.
      * intros j H. destruct (Nat.eq_dec j i) as [-> | N].
        -- rewrite pput_at in H. discriminate.
        -- rewrite pput_ne in H by exact N. eauto.
    + apply (Up e); [exact E|discriminate|reflexivity].
Qed.

Lemma count_zero_none (f : nat -> bool) l i : length (filter f l) = 0%nat -> In i l -> f i = false.
Proof.
  intros H I. destruct (f i) eqn:E; [|reflexivity]. assert (In i (filter f l)) as X by now apply filter_In.
  destruct (filter f l); [destruct X|discriminate].
Qed.

Lemma kinv_step proc n s G x : kinv proc n s G -> NoDup (G ++ generated [x]) -> (kinst x < n)%nat ->
  (forall i, (n <= i)%nat -> k_phase s i = Before) ->
  kinv proc n (kact proc x s) (G ++ generated [x]).
Proof.
  intros I ND L Out. pose proof (fun k p => owned_step proc n s G x k p I ND) as OS. destruct s as [t f]. destruct I as [C H M T].
  cbn [k_table k_phase] in *.
  assert (Same : kinv proc n (Keys t f) (G ++ generated [x])).
  { split; cbn [k_table k_phase]; auto.
    - intros i k P. destruct (M i k P) as (A & B). split; [apply in_or_app; now left|exact B].
    - intros p e E. destruct (T p e E) as (A & B). split; [apply in_or_app; now left|exact B]. }
  (* The instance joins an entry *)
  assert (Join : forall i e, (i < n)%nat -> is_have (f i) = false -> t (proc i) = Some e ->
    (forall k p, owned proc (Keys t f) G k p ->
       owned proc (Keys (tput t (proc i) (Some (Entry (e_key e) (e_count e + 1)))) (pput f i (Have (e_key e)))) (G ++ generated [x]) k p) ->
    kinv proc n (Keys (tput t (proc i) (Some (Entry (e_key e) (e_count e + 1)))) (pput f i (Have (e_key e)))) (G ++ generated [x])).
  { intros i e Li F E OS'. split; cbn [k_table k_phase].
    - intros p. specialize (C p). rewrite (holders_put proc _ t f i (Have (e_key e)) n p Li). rewrite F. cbn [is_have].
      destruct (Nat.eq_dec p (proc i)) as [-> | N].
      + rewrite tput_at, Nat.eqb_refl. rewrite E in C. cbn [e_count]. destruct C. lia.
      + rewrite tput_ne by exact N. replace (Nat.eqb (proc i) p) with false by (symmetry; apply Nat.eqb_neq; congruence).
        destruct (t p); lia.
    - intros j k P. destruct (Nat.eq_dec j i) as [-> | N].
      + rewrite pput_at in P. injection P as <-. rewrite tput_at. eexists. split; reflexivity.
      + rewrite pput_ne in P by exact N. destruct (H j k P) as (e0 & E0 & K0).
        destruct (Nat.eq_dec (proc j) (proc i)) as [Q|Q].
        * rewrite Q in E0 |- *. rewrite tput_at. assert (e0 = e) by congruence. subst e0. eexists. split; [reflexivity|exact K0].
        * rewrite tput_ne by exact Q. eauto.
    - intros j k P. destruct (Nat.eq_dec j i) as [-> | N]; [rewrite pput_at in P; discriminate|].
      rewrite pput_ne in P by exact N. apply OS'. now apply M.
    - intros p e0 E0. apply OS'. destruct (Nat.eq_dec p (proc i)) as [-> | N].
      + rewrite tput_at in E0. injection E0 as <-. cbn [e_key]. now apply T.
      + rewrite tput_ne in E0 by exact N. now apply T. }
  destruct x as [i k'|i|i]; cbn [kinst] in L; unfold kact in OS |- *; cbn [kinst k_table k_phase] in *.
  - destruct (f i) eqn:P; try exact Same. destruct (t (proc i)) as [e|] eqn:E.
    + apply Join; auto. now rewrite P.
    + split; cbn [k_table k_phase].
      * intros p. specialize (C p). rewrite (holders_put proc t t f i (Missed k') n p L). rewrite P. cbn [is_have].
        replace (if Nat.eqb (proc i) p then 0 - 0 else 0) with 0 by (destruct (Nat.eqb _ _); reflexivity).
        rewrite Z.add_0_r. exact C.
      * intros j k Q. destruct (Nat.eq_dec j i) as [-> | N]; [rewrite pput_at in Q; discriminate|].
        rewrite pput_ne in Q by exact N. eauto.
      * intros j k Q. destruct (Nat.eq_dec j i) as [-> | N].
        -- rewrite pput_at in Q. injection Q as <-. cbn [generated] in ND |- *.
           pose proof ND as ND'. apply NoDup_remove_2 in ND'. rewrite app_nil_r in ND'. split; [apply in_or_app; right; now left|].
           split; cbn [k_table k_phase].
           ++ intros q e E1 K1. destruct (T q e E1) as (In1 & _). rewrite K1 in In1. now destruct (ND' In1).
           ++ intros j Q. destruct (Nat.eq_dec j i) as [-> | N]; [reflexivity|]. rewrite pput_ne in Q by exact N.
              destruct (M j k' Q) as (In1 & _). now destruct (ND' In1).
        -- rewrite pput_ne in Q by exact N. apply OS. now apply M.
      * intros p e E1. apply OS. now apply T.
  - destruct (f i) as [|k0| |] eqn:P; try exact Same. destruct (t (proc i)) as [e|] eqn:E.
    + apply Join; auto. now rewrite P.
    + split; cbn [k_table k_phase].
      * intros p. specialize (C p). rewrite (holders_put proc _ t f i (Have k0) n p L). rewrite P. cbn [is_have].
        destruct (Nat.eq_dec p (proc i)) as [-> | N].
        -- rewrite tput_at, Nat.eqb_refl. rewrite E in C. cbn [e_count]. lia.
        -- rewrite tput_ne by exact N. replace (Nat.eqb (proc i) p) with false by (symmetry; apply Nat.eqb_neq; congruence).
           rewrite Z.add_0_r. exact C.
      * intros j k Q. destruct (Nat.eq_dec j i) as [-> | N].
        -- rewrite pput_at in Q. injection Q as <-. rewrite tput_at. eexists. split; reflexivity.
        -- rewrite pput_ne in Q by exact N. destruct (H j k Q) as (e0 & E0 & K0).
           rewrite tput_ne by congruence. eauto.
      * intros j k Q. destruct (Nat.eq_dec j i) as [-> | N]; [rewrite pput_at in Q; discriminate|].
        rewrite pput_ne in Q by exact N. apply OS. now apply M.
      * intros p e0 E0. apply OS. destruct (Nat.eq_dec p (proc i)) as [-> | N].
        -- rewrite tput_at in E0. injection E0 as <-. cbn [e_key]. now apply M.
        -- rewrite tput_ne in E0 by exact N. now apply T.
  - destruct (f i) as [| |k0|] eqn:P; try exact Same.
    destruct (H i k0 P) as (e & E & K). rewrite E in OS |- *. pose proof (C (proc i)) as Ci. rewrite E in Ci. destruct Ci as [Ci Cp].
    assert (HP : holders proc (Keys (tput t (proc i) (if e_count e - 1 =? 0 then None else Some (Entry (e_key e) (e_count e - 1)))) (pput f i Released)) n (proc i) = e_count e - 1).
    { rewrite (holders_put proc _ t f i Released n (proc i) L). rewrite P, Nat.eqb_refl. cbn [is_have]. lia. }
    split; cbn [k_table k_phase].
    + intros p. destruct (Nat.eq_dec p (proc i)) as [-> | N].
      * rewrite tput_at, HP. destruct (Z.eqb_spec (e_count e - 1) 0); cbn [e_count]; lia.
      * rewrite tput_ne by exact N. rewrite (holders_put proc _ t f i Released n p L).
        replace (Nat.eqb (proc i) p) with false by (symmetry; apply Nat.eqb_neq; congruence). rewrite Z.add_0_r. apply C.
    + intros j k Q. destruct (Nat.eq_dec j i) as [-> | N]; [rewrite pput_at in Q; discriminate|].
      rewrite pput_ne in Q by exact N. destruct (H j k Q) as (e0 & E0 & K0).
      destruct (Nat.eq_dec (proc j) (proc i)) as [Q'|Q'].
      * rewrite Q' in E0 |- *. assert (e0 = e) by congruence. subst e0. rewrite tput_at.
        destruct (Z.eqb_spec (e_count e - 1) 0) as [Z0|Z0]; [|eexists; split; [reflexivity|exact K0]]. exfalso.
        rewrite Z0 in HP. unfold holders in HP.
        assert (Lj : (j < n)%nat).
        { destruct (le_lt_dec n j) as [G1|G1]; [|exact G1]. rewrite (Out j G1) in Q. discriminate. }
        assert (X := count_zero_none _ (seq 0 n) j ltac:(apply Nat2Z.inj; exact HP) ltac:(apply in_seq; lia)). cbn beta in X.
        rewrite (has_pput _ t f i Released j N) in X. unfold has_key in X. cbn [k_phase] in X. rewrite Q, Q', Nat.eqb_refl in X.
        discriminate.
      * rewrite tput_ne by exact Q'. eauto.
    + intros j k Q. destruct (Nat.eq_dec j i) as [-> | N]; [rewrite pput_at in Q; discriminate|].
      rewrite pput_ne in Q by exact N. apply OS. now apply M.
    + intros p e0 E0. apply OS. destruct (Nat.eq_dec p (proc i)) as [-> | N].
      * rewrite tput_at in E0. destruct (e_count e - 1 =? 0); [discriminate|]. injection E0 as <-. cbn [e_key]. now apply T.
      * rewrite tput_ne in E0 by exact N. now apply T.
Qed.

Lemma kact_out proc x s i : i <> kinst x -> k_phase (kact proc x s) i = k_phase s i.
Proof.
  intros N. destruct x as [j k|j|j]; unfold kact; cbn [kinst] in *; destruct (k_phase s j); try reflexivity;
    try (destruct (k_table s (proc j))); cbn [k_phase]; now rewrite ?pput_ne.
Qed.

Lemma NoDup_app_l {A} (a b : list A) : NoDup (a ++ b) -> NoDup a.
Proof.
  induction a as [|x a IH]; intros H; [constructor|]. inversion H as [|? ? Hx H']; subst. constructor; auto.
  intros I. apply Hx. apply in_or_app. now left.
Qed.

Lemma kinv_run proc n l : NoDup (generated l) -> Forall (fun x => (kinst x < n)%nat) l ->
  kinv proc n (krun proc l kinit) (generated l) /\ (forall i, (n <= i)%nat -> k_phase (krun proc l kinit) i = Before).
Proof.
  induction l as [|x l IH] using rev_ind; intros ND F.
  - split; [|reflexivity]. split; cbn [krun fold_left kinit k_table k_phase]; try discriminate.
    intros p. unfold holders. replace (filter _ _) with (@nil nat); [reflexivity|].
    symmetry. induction (seq 0 n) as [|y t IHt]; [reflexivity|]. exact IHt.
  - rewrite generated_app in ND |- *. apply Forall_app in F. destruct F as [F Fx]. inversion Fx as [|? ? Lx _]; subst.
    destruct (IH (NoDup_app_l _ _ ND) F) as [I O]. rewrite krun_app. cbn [krun fold_left]. split.
    + now apply kinv_step.
    + intros i Li. rewrite kact_out by lia. now apply O.
Qed.

Lemma owned_run proc n l k p : forall l1, NoDup (generated (l1 ++ l)) -> Forall (fun x => (kinst x < n)%nat) (l1 ++ l) ->
  owned proc (krun proc l1 kinit) (generated l1) k p -> owned proc (krun proc (l1 ++ l) kinit) (generated (l1 ++ l)) k p.
Proof.
  induction l as [|x l IH]; intros l1 ND F O; [now rewrite app_nil_r|].
  replace (l1 ++ x :: l) with ((l1 ++ [x]) ++ l) in * by (now rewrite <- app_assoc). apply IH; [exact ND|exact F|].
  rewrite generated_app in ND. apply NoDup_app_l in ND. apply Forall_app in F. destruct F as [F _].
  rewrite generated_app in ND |- *. rewrite krun_app. cbn [krun fold_left].
  apply Forall_app in F. destruct F as [F _].
  eapply owned_step; [|exact ND|exact O]. apply (kinv_run proc n l1 (NoDup_app_l _ _ ND) F).
Qed.

(** ** Messages *)

Lemma slice_eq off n b b' : (off + n <= length b)%nat -> length b' = length b ->
  slice off n b' = slice off n b -> firstn n (skipn off b') = firstn n (skipn off b).
Proof. intros L E S. rewrite !slice_ok in S by lia. congruence. Qed.

Lemma put_packet off v b b' : put_at off v b = Ok b' -> (off + length v <= 6)%nat -> (8 <= length b)%nat -> same_packet b' b.
Proof.
  intros E L B. pose proof (put_at_length _ _ _ _ E) as HL. split; [exact HL|].
  pose proof (slice_put_other off v b b' 6 (length b - 6) E (or_intror L)) as S.
  rewrite !slice_ok in S by lia. injection S as S.
  rewrite (firstn_all2 (skipn 6 b')) in S by (rewrite skipn_length; lia).
  rewrite (firstn_all2 (skipn 6 b)) in S by (rewrite skipn_length; lia). exact S.
Qed.

Lemma set_code c b : packet_like b -> exists p, SetCode c b = Ok p /\ packet_like p /\ same_packet p b /\ coded c p.
Proof.
  intros (B & L & M). unfold SetCode.
  destruct (put_at_is_ok OffsetCode (le 2 (u16 c)) b) as [p E]; [rewrite length_le; unfold OffsetCode; lia|].
  exists p. pose proof (put_at_length _ _ _ _ E) as HL.
  assert (S : same_packet p b) by (eapply put_packet; [exact E|rewrite length_le; unfold OffsetCode; lia|exact L]).
  repeat split; try (apply S).
  - exact E.
  - eapply put_at_bytes; [exact E|apply le_bytes|exact B].
  - lia.
  - unfold len in *. rewrite HL. exact M.
  - unfold coded. pose proof (slice_put_same _ _ _ _ 2 E ltac:(now rewrite length_le)) as X. unfold OffsetCode in X.
    rewrite slice_ok in X by lia.
    assert (Y : firstn 2 (skipn 4 p) = le 2 (u16 c)) by congruence. rewrite Y, unle_le. unfold u16. now rewrite Zmod_mod.
Qed.

Lemma set_size b : packet_like b -> exists p, SetSize b = Ok p /\ packet_like p /\ same_packet p b /\ sized p /\
  firstn 2 (skipn 4 p) = firstn 2 (skipn 4 b).
Proof.
  intros (B & L & M). unfold SetSize. replace (len b >? 4294967295) with false by lia.
  destruct (put_at_is_ok OffsetSize (le 4 (u32 (len b))) b) as [p E]; [rewrite length_le; unfold OffsetSize; lia|].
  exists p. pose proof (put_at_length _ _ _ _ E) as HL.
  assert (S : same_packet p b) by (eapply put_packet; [exact E|rewrite length_le; unfold OffsetSize; lia|exact L]).
  repeat split; try (apply S).
  - exact E.
  - eapply put_at_bytes; [exact E|apply le_bytes|exact B].
  - lia.
  - unfold len in *. rewrite HL. exact M.
  - lia.
  - pose proof (slice_put_same _ _ _ _ 4 E ltac:(now rewrite length_le)) as X. unfold OffsetSize in X.
    rewrite slice_ok in X by lia. change (skipn 0 p) with p in X.
    assert (Y : firstn 4 p = le 4 (u32 (len b))) by congruence. rewrite Y, unle_le.
    pose proof (len_nonneg b). change (256 ^ Z.of_nat 4) with (2 ^ 32).
    rewrite u32_id, Z.mod_small by lia. unfold len. now rewrite HL.
  - apply slice_eq; [lia|exact HL|]. eapply slice_put_other; [exact E|right; rewrite length_le; unfold OffsetSize; lia].
Qed.

Lemma same_packet_trans p q r : same_packet p q -> same_packet q r -> same_packet p r.
Proof. intros [A B] [C D]. split; congruence. Qed.

Lemma cut_snoc b l p : cut b l -> sized p -> cut (b ++ p) (l ++ [p]).
Proof.
  intros C S. induction C as [|q b l Sq C IH].
  - cbn [app]. rewrite <- (app_nil_r p) at 1. constructor; [exact S|constructor].
  - rewrite <- app_assoc. cbn [app]. now constructor.
Qed.

Lemma short_like b n : packet_like b -> (n + short b)%nat = n.
Proof. intros (_ & L & _). unfold short, HeaderSize. replace (Nat.ltb (length b) 8) with false; [lia|]. symmetry. apply Nat.ltb_ge. lia. Qed.

(* Whether the stream fails, and how it ends *)
Lemma receive_buffer_spec stream : forall buf l n, Forall packet_like (messages stream) -> cut buf l ->
  exists lft m e, receive_buffer buf n stream = (lft, m, e) /\
    ((e = Receiving /\ lft = None) \/
     (e = Done /\ exists b l', lft = Some b /\ cut b (l ++ l') /\ Forall2 same_packet l' (messages stream))) /\
    (m <= S n)%nat.
Proof.
  induction stream as [|r stream IH]; intros buf l n F C; cbn [receive_buffer].
  - do 3 eexists. split; [reflexivity|]. split; [now left|lia].
  - destruct r as [b| |]; cbn [messages] in *.
    + inversion F as [|? ? Pb F']; subst. rewrite (short_like _ n Pb).
      destruct (set_size b Pb) as (p & E & _ & S & Z & _). rewrite E.
      destruct (IH (buf ++ p) (l ++ [p]) n F' (cut_snoc _ _ _ C Z)) as (lft & m & e & R & Q & Lm).
      do 3 eexists. split; [exact R|]. split; [|exact Lm].
      destruct Q as [Q | (Q1 & b' & l' & Q2 & Q3 & Q4)]; [now left|]. right. split; [exact Q1|].
      exists b', (p :: l'). split; [exact Q2|]. split; [rewrite <- app_assoc in Q3; exact Q3|now constructor].
    + do 3 eexists. split; [reflexivity|]. split; [|lia]. right. split; [reflexivity|].
      exists buf, []. rewrite app_nil_r. repeat split; [exact C|constructor].
    + do 3 eexists. split; [reflexivity|]. split; [|lia]. right. split; [reflexivity|].
      exists buf, []. rewrite app_nil_r. repeat split; [exact C|constructor].
Qed.

Definition all_good (code : Z) (stream : list received) (sent0 : list bytes) (f : forwarded) : Prop :=
  exists more, f_sent f = sent0 ++ more /\ Forall (coded code) more /\
  ((exists rest, Forall2 same_packet more (firstn (length more) (messages stream)) /\ rest = skipn (length more) (messages stream) /\
     f_end f <> Done /\ f_end f <> Crashed /\ f_left f = None) \/
   (f_end f = Done /\ exists left, Forall2 same_packet (more ++ left) (messages stream) /\
      match f_left f with
      | Some b => cut b left /\ exists p t, left = p :: t /\ coded code p
      | None => left = [] end)).

Lemma receive_forward_spec code stream : forall choices sent n, Forall packet_like (messages stream) ->
  all_good code stream sent (receive_forward code choices sent n stream) /\ (f_aborts (receive_forward code choices sent n stream) <= S n)%nat.
Proof.
  induction stream as [|r stream IH]; intros choices sent n F; cbn [receive_forward].
  - split; [|cbn [f_aborts]; lia]. exists []. rewrite app_nil_r. repeat split; [constructor|]. left. exists [].
    cbn [messages firstn length f_end f_left]. repeat split; try discriminate. constructor.
  - destruct r as [b| |]; cbn [messages] in F.
    + inversion F as [|? ? Pb F']; subst. rewrite (short_like _ n Pb).
      destruct (set_code code b Pb) as (p & E & Pp & S & Cp). rewrite E. destruct choices as [|[] choices].
      * split; [|cbn [f_aborts]; lia]. exists []. rewrite app_nil_r. repeat split; [constructor|]. left. eexists.
        cbn [messages firstn length f_end f_left]. repeat split; try discriminate. constructor.
      * destruct (IH choices (sent ++ [p]) n F') as ((more & E1 & E2 & E3) & A). split; [|exact A].
        exists (p :: more). rewrite <- app_assoc in E1. cbn [app] in E1. split; [exact E1|].
        split; [now constructor|]. cbn [messages]. destruct E3 as [(rest & Q1 & Q2 & Q3 & Q4 & Q5) | (Q1 & left & Q2 & Q3)].
        -- left. exists rest. cbn [length firstn skipn]. repeat split; auto.
        -- right. split; [exact Q1|]. exists left. split; [cbn [app]; now constructor|exact Q3].
      * destruct (set_size p Pp) as (q & Eq & Pq & Sq & Zq & Cq). rewrite Eq.
        assert (C0 : cut q [q]) by (rewrite <- (app_nil_r q) at 1; constructor; [exact Zq|constructor]).
        destruct (receive_buffer_spec stream q [q] n F' C0) as (lft & m & e & R & Q & Lm). rewrite R.
        split; [|cbn [f_aborts]; lia]. exists []. rewrite app_nil_r. split; [reflexivity|]. split; [constructor|].
        cbn [f_end f_left messages]. destruct Q as [(-> & ->) | (-> & b' & l' & -> & Q3 & Q4)].
        -- left. eexists. cbn [firstn length]. repeat split; try discriminate. constructor.
        -- right. split; [reflexivity|]. exists (q :: l'). split.
           ++ cbn [app]. constructor; [|exact Q4]. eapply same_packet_trans; eassumption.
           ++ split; [exact Q3|]. exists q, l'. split; [reflexivity|]. unfold coded in *. now rewrite Cq.
    + split; [|cbn [f_aborts]; lia]. exists []. rewrite app_nil_r. repeat split; [constructor|]. right.
      split; [reflexivity|]. exists []. split; [constructor|reflexivity].
    + split; [|cbn [f_aborts]; lia]. exists []. rewrite app_nil_r. repeat split; [constructor|]. right.
      split; [reflexivity|]. exists []. split; [constructor|reflexivity].
Qed.

Lemma handle_all_spec l : forall s inc, h_error s = false -> Forall (fun x => sized (fst x)) l ->
  Forall (fun x => r_got (snd x) = r_ok (snd x)) l -> cut (h_incoming s) inc ->
  let h := handle_all l s in
  exists n m inc', cut (h_incoming h) inc' /\ m = (if h_error h then 1 else 0)%nat /\
    (n + m <= length l)%nat /\ (m = 0%nat -> n = length l) /\
    h_got h ++ inc' = h_got s ++ inc ++ firstn n (map fst l).
Proof.
  induction l as [|[p r] l IH]; intros s inc E Z R C; cbn zeta; cbn [handle_all].
  - exists 0%nat, 0%nat, inc. rewrite E. cbn [firstn map length]. rewrite app_nil_r. repeat split; auto.
  - rewrite E. inversion Z as [|? ? Zp Z']; subst. inversion R as [|? ? Rp R']; subst. cbn [fst snd] in *.
    unfold handle. destruct (h_incoming s) as [|x b] eqn:I.
    + assert (inc = []) as ->.
      { inversion C as [|q b0 l0 Sq Cq Eq]; [reflexivity|]. destruct Sq as [Lq _]. destruct q; [cbn in Lq; lia|discriminate]. }
      destruct (r_ok r) eqn:K; rewrite Rp; cbn [andb].
      * destruct (IH (Handled (h_got s ++ [p]) [] (h_error s)) [] E Z' R' ltac:(constructor))
          as (n & m & inc' & C' & M & L & M0 & Q). cbn [h_got] in Q.
        exists (S n), m, inc'. cbn [length map firstn fst]. repeat split; auto; try lia.
        cbn [app] in Q |- *. rewrite Q, <- app_assoc. reflexivity.
      * destruct (r_done r).
        -- destruct (IH (Handled (h_got s) p (h_error s)) [p] E Z' R') as (n & m & inc' & C' & M & L & M0 & Q).
           { cbn [h_incoming]. rewrite <- (app_nil_r p) at 1. constructor; [exact Zp|constructor]. }
           exists (S n), m, inc'. cbn [length map firstn fst]. repeat split; auto; try lia.
        -- assert (X : handle_all l (Handled (h_got s) [] true) = Handled (h_got s) [] true) by (destruct l as [|[] l]; reflexivity).
           rewrite X. exists 0%nat, 1%nat, []. cbn [h_error h_incoming h_got length map firstn]. repeat split; try lia; try constructor.
    + rewrite <- I in C |- *.
      destruct (IH (Handled (h_got s) (h_incoming s ++ p) (h_error s)) (inc ++ [p]) E Z' R' (cut_snoc _ _ _ C Zp))
        as (n & m & inc' & C' & M & L & M0 & Q). cbn [h_got] in Q.
      exists (S n), m, inc'. cbn [length map firstn fst]. repeat split; auto; try lia.
      rewrite Q, <- app_assoc. reflexivity.
Qed.
