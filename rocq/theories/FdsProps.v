(* FdsProps.v: C119. *)
From Verif Require Export Fds.
From Coq Require Import Lia.

(** ** Tables *)
Lemma isopen_spec t fd : isopen t fd = true <-> In fd (fds t).
Proof.
  unfold isopen. rewrite existsb_exists. split.
  - intros (x & I & E). apply Z.eqb_eq in E. now subst.
  - intro I. exists fd. split; [exact I|apply Z.eqb_refl].
Qed.
Fixpoint zseq (n : Z) (k : nat) : list Z := match k with O => [] | S k => n :: zseq (n + 1) k end.
Lemma zseq_in k : forall n x, In x (zseq n k) <-> n <= x < n + Z.of_nat k.
Proof.
  induction k as [|k IH]; intros n x; cbn [zseq In]; [lia|]. rewrite IH. lia.
Qed.
Lemma zseq_nodup k : forall n, NoDup (zseq n k).
Proof. induction k as [|k IH]; intro n; cbn [zseq]; constructor; [rewrite zseq_in; lia|apply IH]. Qed.
Lemma zseq_length k : forall n, length (zseq n k) = k.
Proof. induction k as [|k IH]; intro n; cbn [zseq length]; [reflexivity|]. now rewrite IH. Qed.
Lemma fds_length t : length (fds t) = length t.
Proof. apply map_length. Qed.

Lemma lowest_from_spec fuel : forall n t,
  n <= lowest_from fuel n t <= n + Z.of_nat fuel /\ (forall j, n <= j < lowest_from fuel n t -> In j (fds t)) /\
  (lowest_from fuel n t < n + Z.of_nat fuel -> ~ In (lowest_from fuel n t) (fds t)).
Proof.
  induction fuel as [|fuel IH]; intros n t; cbn [lowest_from].
  - split; [lia|]. split; [lia|lia].
  - destruct (isopen t n) eqn:E.
    + destruct (IH (n + 1) t) as (A & B & C). split; [lia|]. split.
      * intros j J. destruct (Z.eq_dec j n) as [-> | N]; [now apply isopen_spec|]. apply B. lia.
      * intro L. apply C. lia.
    + split; [lia|]. split; [lia|]. intros _ I. apply isopen_spec in I. congruence.
Qed.
Lemma lowest_spec t : 0 <= lowest t <= Z.of_nat (length t) /\ (forall j, 0 <= j < lowest t -> In j (fds t)) /\ ~ In (lowest t) (fds t).
Proof.
  unfold lowest. destruct (lowest_from_spec (length t) 0 t) as (A & B & C). split; [lia|]. split; [exact B|].
  destruct (Z.eq_dec (lowest_from (length t) 0 t) (Z.of_nat (length t))) as [E|N]; [|apply C; lia].
  intro I. rewrite E in *.
  assert (X : incl (zseq 0 (S (length t))) (fds t)).
  { intros x Y. apply zseq_in in Y. destruct (Z.eq_dec x (Z.of_nat (length t))) as [-> | N]; [exact I|]. apply B. lia. }
  apply NoDup_incl_length in X; [|apply zseq_nodup]. rewrite zseq_length, fds_length in X. lia.
Qed.

Lemma lookup_in t fd x : lookup t fd = Some x -> In (fd, x) t.
Proof.
  induction t as [|[n y] t IH]; cbn [lookup]; [discriminate|]. destruct (Z.eqb_spec fd n) as [-> | N].
  - intro H. injection H as ->. now left.
  - intro H. right. now apply IH.
Qed.
Lemma lookup_fds t fd x : lookup t fd = Some x -> In fd (fds t).
Proof. intro H. apply lookup_in in H. unfold fds. apply in_map_iff. now exists (fd, x). Qed.
Lemma lookup_close t a b : lookup (close t a) b = if b =? a then None else lookup t b.
Proof.
  induction t as [|[n x] t IH]; cbn [close filter lookup fst]; [now destruct (b =? a)|].
  destruct (Z.eqb_spec a n) as [-> | N]; cbn [negb].
  - fold (close t n). rewrite IH. destruct (Z.eqb_spec b n); reflexivity.
  - cbn [lookup]. fold (close t a). rewrite IH. destruct (Z.eqb_spec b n) as [-> | M]; [|reflexivity].
    destruct (Z.eqb_spec n a); [congruence|reflexivity].
Qed.
Lemma close_fds t a : fds (close t a) = filter (fun x => negb (a =? x)) (fds t).
Proof.
  unfold fds, close. induction t as [|[n x] t IH]; [reflexivity|]. cbn [filter map fst] in *.
  destruct (a =? n); cbn [negb]; cbn [map fst]; [exact IH|]. now rewrite IH.
Qed.
Lemma close_nodup t a : NoDup (fds t) -> NoDup (fds (close t a)).
Proof. rewrite close_fds. apply NoDup_filter. Qed.
Lemma close_forall (P : Z * (obj * bool) -> Prop) t a : Forall P t -> Forall P (close t a).
Proof. intro H. rewrite Forall_forall in *. intros x I. apply H. unfold close in I. now apply filter_In in I as [I _]. Qed.
Lemma filter_notin a l : ~ In a l -> filter (fun x => negb (a =? x)) l = l.
Proof.
  induction l as [|x l IH]; cbn [filter In]; intro H; [reflexivity|].
  destruct (Z.eqb_spec a x) as [-> | N]; [tauto|]. cbn [negb]. f_equal. apply IH. tauto.
Qed.
Lemma close_length t a : NoDup (fds t) -> In a (fds t) -> S (length (close t a)) = length t.
Proof.
  intros N I. rewrite <- !fds_length, close_fds. induction (fds t) as [|x l IH]; [destruct I|].
  inversion_clear N as [|? ? A B]. cbn [filter]. destruct (Z.eqb_spec a x) as [-> | M]; cbn [negb length].
  - now rewrite filter_notin.
  - f_equal. apply IH; [exact B|]. destruct I as [->|I]; [congruence|exact I].
Qed.

(* a table of the executor: everything is closed on exec *)
Definition ok (t : table) : Prop :=
  NoDup (fds t) /\ Forall (fun x => 0 <= fst x < NOFILE) t /\ Forall (fun x => snd (snd x) = true) t /\ lookup t 0 = Some (DevNull, true).
Lemma open_ok t o fd t' : ok t -> open NOFILE t o true = Some (fd, t') ->
  t' = (fd, (o, true)) :: t /\ ~ In fd (fds t) /\ ok t'.
Proof.
  intros (N & B & C & D) H. unfold open in H. destruct (lowest_spec t) as (L1 & _ & L3).
  destruct (Z.ltb_spec (lowest t) NOFILE) as [L|]; [|discriminate]. injection H as <- <-. split; [reflexivity|]. split; [exact L3|].
  split; [|split; [|split]].
  - cbn [fds map fst]. constructor; assumption.
  - constructor; [cbn [fst]; lia|exact B].
  - constructor; [reflexivity|exact C].
  - cbn [lookup]. destruct (Z.eqb_spec 0 (lowest t)) as [E|_]; [|exact D]. exfalso. apply L3. rewrite <- E. eapply lookup_fds, D.
Qed.
Lemma open_total t o : Z.of_nat (length t) < NOFILE -> open NOFILE t o true <> None.
Proof. intros L H. unfold open in H. destruct (lowest_spec t) as (A & _). destruct (Z.ltb_spec (lowest t) NOFILE); [discriminate|lia]. Qed.
Lemma open_fails t o : ok t -> NOFILE <= Z.of_nat (length t) -> open NOFILE t o true = None.
Proof.
  intros (N & B & _) L. unfold open. destruct (lowest_spec t) as (A1 & A2 & A3). destruct (Z.ltb_spec (lowest t) NOFILE) as [Q|]; [|reflexivity].
  exfalso. apply A3.
  assert (I : incl (fds t) (zseq 0 (Z.to_nat NOFILE))).
  { intros x X. apply zseq_in. unfold fds in X. apply in_map_iff in X as (y & <- & Y). rewrite Forall_forall in B. apply B in Y.
    unfold NOFILE in *. lia. }
  apply NoDup_length_incl in I; [|exact N|rewrite zseq_length, fds_length; lia].
  apply I, zseq_in. unfold NOFILE in *. lia.
Qed.
Lemma close_ok t a x : ok t -> lookup t a = Some x -> x <> (DevNull, true) -> ok (close t a).
Proof.
  intros (N & B & C & D) H X. split; [now apply close_nodup|]. split; [now apply close_forall|]. split; [now apply close_forall|].
  rewrite lookup_close. destruct (Z.eqb_spec 0 a) as [<- | _]; [congruence|exact D].
Qed.

(** ** Pending messages *)
Lemma nodup_app {A} (a b : list A) : NoDup a -> NoDup b -> (forall x, In x a -> ~ In x b) -> NoDup (a ++ b).
Proof.
  induction a as [|x a IH]; cbn [app]; intros NA NB D; [exact NB|]. inversion_clear NA as [|? ? N1 N2]. constructor.
  - rewrite in_app_iff. intros [I|I]; [now apply N1|]. apply (D x); [now left|exact I].
  - apply IH; [exact N2|exact NB|]. intros y Y. apply D. now right.
Qed.
Definition at_ (t : table) (l : list obj) (n : list Z) : Prop := Forall2 (fun fd o => lookup t fd = Some (o, true)) n l.
Definition others (o : obj) : Prop := match o with DevNull | Pidfd _ => False | _ => True end.
Lemma nodup_app_inv {A} (a b : list A) : NoDup (a ++ b) -> NoDup a /\ NoDup b /\ (forall x, In x a -> ~ In x b).
Proof.
  induction a as [|x a IH]; cbn [app]; intro H; [split; [constructor|split; [exact H|intros ? []]]|].
  inversion_clear H as [|? ? N1 N2]. rewrite in_app_iff in N1. destruct (IH N2) as (A1 & A2 & A3). split; [constructor; tauto|].
  split; [exact A2|]. intros y [<- | Y]; [tauto|now apply A3].
Qed.
Lemma rights_others r : Forall others (rights r).
Proof. destruct r as [k [|]|]; repeat constructor. Qed.
Lemma at_cons t fd x l n : ~ In fd (fds t) -> at_ t l n -> at_ ((fd, x) :: t) l n.
Proof.
  intros F H. induction H as [|a o n l A H IH]; constructor; [|exact IH]. cbn [lookup].
  destruct (Z.eqb_spec a fd) as [-> | _]; [|exact A]. exfalso. apply F. eapply lookup_fds, A.
Qed.
Lemma at_in t l n fd : at_ t l n -> In fd n -> In fd (fds t).
Proof. intros H I. induction H as [|a o n l A H IH]; [destruct I|]. destruct I as [<- | I]; [eapply lookup_fds, A|now apply IH]. Qed.
Definition nums (m : list (req * list Z)) : list Z := concat (map snd m).
Definition pending_ok (t : table) (m : list (req * list Z)) : Prop :=
  Forall (fun x => at_ t (rights (fst x)) (snd x)) m /\ NoDup (nums m).

Lemma open_all_ok l : forall t n t', ok t -> open_all t l = Some (n, t') ->
  ok t' /\ at_ t' l n /\ NoDup n /\ (forall fd, In fd n -> ~ In fd (fds t)) /\
  (forall fd x, lookup t fd = Some x -> lookup t' fd = Some x) /\ length t' = (length l + length t)%nat.
Proof.
  induction l as [|o l IH]; intros t n t' O H; cbn [open_all] in H.
  - injection H as <- <-. split; [exact O|]. split; [constructor|]. split; [constructor|]. split; [intros ? []|]. split; [auto|reflexivity].
  - destruct (open NOFILE t o true) as [[fd t1]|] eqn:E; [|discriminate]. cbn [obind] in H.
    destruct (open_all t1 l) as [[r t2]|] eqn:E2; [|discriminate]. cbn [obind] in H. injection H as <- <-.
    apply open_ok in E as (-> & F & O1); [|exact O]. destruct (IH _ _ _ O1 E2) as (O2 & A & N & D & K & L).
    assert (K0 : forall fd' x, lookup t fd' = Some x -> lookup ((fd, (o, true)) :: t) fd' = Some x).
    { intros fd' x Q. cbn [lookup]. destruct (Z.eqb_spec fd' fd) as [-> | _]; [|exact Q]. exfalso. apply F. eapply lookup_fds, Q. }
    split; [exact O2|]. split.
    { constructor; [|exact A]. apply K. cbn [lookup]. now rewrite Z.eqb_refl. }
    split. { constructor; [|exact N]. intro I. apply (D _ I). now left. }
    split. { intros fd' [<- | I]; [exact F|]. intro I'. apply (D _ I). now right. }
    split. { intros fd' x Q. apply K, K0, Q. }
    rewrite L. cbn [length]. lia.
Qed.
Lemma at_mono t t' l n : (forall fd x, lookup t fd = Some x -> lookup t' fd = Some x) -> at_ t l n -> at_ t' l n.
Proof. intros K H. induction H; constructor; auto. Qed.
Definition weight (l : list req) : nat := length (flat_map rights l).
Lemma receive_ok l : forall t m t', ok t -> receive t l = Some (m, t') ->
  ok t' /\ pending_ok t' m /\ map fst m = l /\ (forall fd, In fd (nums m) -> ~ In fd (fds t)) /\
  (forall fd x, lookup t fd = Some x -> lookup t' fd = Some x) /\ length t' = (weight l + length t)%nat.
Proof.
  induction l as [|r l IH]; intros t m t' O H; cbn [receive] in H.
  - injection H as <- <-. repeat split; try constructor; try tauto; try apply O.
  - destruct (open_all t (rights r)) as [[n t1]|] eqn:E; [|discriminate]. cbn [obind] in H.
    destruct (receive t1 l) as [[m2 t2]|] eqn:E2; [|discriminate]. cbn [obind] in H. injection H as <- <-.
    destruct (open_all_ok _ _ _ _ O E) as (O1 & A & N & D & K & L). destruct (IH _ _ _ O1 E2) as (O2 & [P1 P2] & M & D2 & K2 & L2).
    split; [exact O2|]. split.
    { split; [constructor; [apply (at_mono t1); assumption|exact P1]|]. unfold nums. cbn [map snd concat]. fold (nums m2).
      apply nodup_app; [exact N|exact P2|]. intros x X Y. apply (D2 x Y). eapply at_in; eassumption. }
    split; [cbn [map fst]; now rewrite M|].
    split. { intros fd I. unfold nums in I. cbn [map snd concat] in I. apply in_app_iff in I as [I|I]; [now apply D|].
             intro I'. apply (D2 fd I). clear - I' K. unfold fds in *. apply in_map_iff in I' as ([fd' x] & E & I'). cbn in E. subst fd'.
             destruct (lookup t fd) as [y|] eqn:Q; [apply K in Q; eapply lookup_fds, Q|]. exfalso.
             clear K. induction t as [|[a y] t IH]; [destruct I'|]. cbn [lookup] in Q. destruct (Z.eqb_spec fd a) as [-> | NE]; [discriminate|].
             destruct I' as [I'|I']; [congruence|]. now apply IH. }
    split; [intros; auto|]. unfold weight in *. cbn [flat_map]. rewrite app_length, L2, L. lia.
Qed.

(** ** The executor *)
Lemma exec_ok t : Forall (fun x => snd (snd x) = true) t -> exec t = [].
Proof. induction t as [|x t IH]; intro H; [reflexivity|]. inversion_clear H as [|? ? A B]. unfold exec in *. cbn [filter]. rewrite A. now apply IH. Qed.
Definition born (k : nat) : table := [(1, (Output k, false)); (0, (Input k, false))].
Lemma execute_child_ok t k a b rest : ok t -> lookup t a = Some (Input k, true) -> lookup t b = Some (Output k, true) ->
  execute_child t (a :: b :: rest) = Some (born k).
Proof.
  intros (_ & _ & C & D) A B. unfold execute_child, dup. rewrite A. cbn [obind lookup].
  destruct (Z.eqb_spec b 0) as [-> | N]; [congruence|]. rewrite lookup_close. destruct (Z.eqb_spec b 0); [congruence|]. rewrite B. cbn [obind].
  change (close ((0, (Input k, false)) :: close t 0) 1) with ((0, (Input k, false)) :: close (close t 0) 1).
  change (exec ((1, (Output k, false)) :: (0, (Input k, false)) :: close (close t 0) 1))
    with ((1, (Output k, false)) :: (0, (Input k, false)) :: exec (close (close t 0) 1)).
  rewrite exec_ok; [reflexivity|]. now apply close_forall, close_forall.
Qed.
Lemma close_all_ok n : forall l t, ok t -> at_ t l n -> NoDup n -> Forall others l ->
  ok (close_all t n) /\ (forall fd, ~ In fd n -> lookup (close_all t n) fd = lookup t fd) /\ length t = (length n + length (close_all t n))%nat.
Proof.
  induction n as [|a n IH]; intros l t O A N F; cbn [close_all fold_left].
  - split; [exact O|]. split; [reflexivity|reflexivity].
  - inversion A as [|? o ? l' A1 A2]; subst. inversion_clear N as [|? ? N1 N2]. inversion_clear F as [|? ? F1 F2].
    assert (O' : ok (close t a)) by (eapply close_ok; [exact O|exact A1|]; destruct o; try discriminate; destruct F1).
    assert (A' : at_ (close t a) l' n).
    { clear - A2 N1. induction A2 as [|b o n l B A2 IH]; constructor.
      - rewrite lookup_close. destruct (Z.eqb_spec b a) as [-> | _]; [exfalso; apply N1; now left|exact B].
      - apply IH. intro I. apply N1. now right. }
    destruct (IH _ _ O' A' N2 F2) as (X & Y & Z0). fold (close_all (close t a) n). split; [exact X|]. split.
    + intros fd I. cbn [In] in I. rewrite Y by tauto. rewrite lookup_close. destruct (Z.eqb_spec fd a) as [-> | _]; [tauto|reflexivity].
    + pose proof (close_length t a (proj1 O) (lookup_fds _ _ _ A1)). cbn [length]. lia.
Qed.

Definition inv (s : exs) (m : list (req * list Z)) : Prop :=
  ok (x_table s) /\ pending_ok (x_table s) m /\
  Forall (fun x => lookup (x_table s) (snd x) = Some (Pidfd (fst x), true)) (x_live s) /\ NoDup (map fst (x_live s)) /\
  (forall k c, In (k, c) (x_started s) -> c = born k) /\
  length (x_table s) = (8 + length (x_live s) + length (nums m))%nat.

Lemma pending_keep t t' m n : (forall fd, ~ In fd n -> lookup t' fd = lookup t fd) -> (forall fd, In fd (nums m) -> ~ In fd n) ->
  pending_ok t m -> pending_ok t' m.
Proof.
  intros K D [P N]. split; [|exact N]. clear N. induction P as [|[r a] m A P IH]; constructor.
  - cbn [fst snd] in *. assert (Q : forall fd, In fd a -> ~ In fd n).
    { intros fd I. apply D. unfold nums. cbn [map snd concat]. apply in_app_iff. now left. }
    clear - A K Q. induction A as [|b o a l B A IH]; constructor.
    + rewrite K; [exact B|]. apply Q. now left.
    + apply IH. intros fd I. apply Q. now right.
  - apply IH. intros fd I. apply D. unfold nums. cbn [map snd concat]. apply in_app_iff. now right.
Qed.
Lemma live_keep t t' l n : (forall fd, ~ In fd n -> lookup t' fd = lookup t fd) ->
  (forall x, In x l -> ~ In (snd x) n) ->
  Forall (fun x : nat * Z => lookup t (snd x) = Some (Pidfd (fst x), true)) l -> Forall (fun x => lookup t' (snd x) = Some (Pidfd (fst x), true)) l.
Proof.
  intros K D H. rewrite Forall_forall in *. intros x I. rewrite K; [now apply H|now apply D].
Qed.
Lemma at_others t l n fd : at_ t l n -> Forall others l -> In fd n -> exists o, lookup t fd = Some (o, true) /\ others o.
Proof.
  intros A. induction A as [|a o n l B A IH]; intros F I; [destruct I|]. inversion_clear F as [|? ? F1 F2].
  destruct I as [<- | I]; [eauto|now apply IH].
Qed.
Lemma lookup_push t fd x fd' : ~ In fd (fds t) -> In fd' (fds t) -> lookup ((fd, x) :: t) fd' = lookup t fd'.
Proof. intros F I. cbn [lookup]. destruct (Z.eqb_spec fd' fd) as [-> | _]; [contradiction|reflexivity]. Qed.

Lemma handle_inv s r n m s' : inv s ((r, n) :: m) -> handle s (r, n) = Some s' -> inv s' m.
Proof.
  intros (O & P & L & LN & ST & C) H. destruct P as [P N]. inversion P as [|? ? A P']; subst. cbn [fst snd] in A.
  unfold nums in N, C. cbn [map snd concat] in N, C. fold (nums m) in N, C. rewrite app_length in C.
  destruct (nodup_app_inv _ _ N) as (N1 & N2 & N3').
  assert (N3 : forall fd, In fd (nums m) -> ~ In fd n) by (intros fd I J; now apply (N3' fd)).
  destruct r as [k g|k]; cbn [handle] in H.
  - destruct (existsb _ _) eqn:X; [discriminate|].
    destruct (open NOFILE (x_table s) (Pidfd k) true) as [[pfd t1]|] eqn:E; [|discriminate]. cbn [obind] in H.
    apply open_ok in E as (-> & F & O1); [|exact O].
    assert (CH : execute_child (x_table s) n = Some (born k)).
    { destruct g; cbn [rights] in A; inversion A as [|? ? ? ? A1 A2]; subst; inversion A2 as [|? ? ? ? A3 A4]; subst;
        now apply execute_child_ok. }
    rewrite CH in H. cbn [obind] in H. injection H as <-.
    assert (A' : at_ ((pfd, (Pidfd k, true)) :: x_table s) (rights (Create k g)) n) by (apply at_cons; assumption).
    destruct (close_all_ok n _ _ O1 A' N1 (rights_others _)) as (O2 & K & LEN).
    assert (PN : ~ In pfd n) by (intro I; apply F; eapply at_in; eassumption).
    split; [exact O2|]. split.
    { eapply pending_keep; [exact K|exact N3|]. split; [|exact N2]. rewrite Forall_forall in *. intros x I. apply at_cons; [exact F|now apply P']. }
    split.
    { cbn [x_live]. constructor.
      - cbn [fst snd x_table]. rewrite K by exact PN. cbn [lookup]. now rewrite Z.eqb_refl.
      - eapply (live_keep ((pfd, (Pidfd k, true)) :: x_table s)); [exact K| |].
        + intros x I J. rewrite Forall_forall in L. apply L in I. destruct (at_others _ _ _ _ A (rights_others _) J) as (o & Q & R).
          rewrite Q in I. injection I as ->. exact R.
        + rewrite Forall_forall in *. intros x I. rewrite lookup_push; [now apply L|exact F|]. eapply lookup_fds, L, I. }
    split.
    { cbn [x_live map fst]. constructor; [|exact LN]. intro I. apply in_map_iff in I as (x & Q & I).
      assert (Y : existsb (fun x => Nat.eqb (fst x) k) (x_live s) = true) by (apply existsb_exists; exists x; split; [exact I|rewrite Q; apply Nat.eqb_refl]).
      congruence. }
    split.
    { cbn [x_started]. intros k' c [I|I]; [injection I as <- <-; reflexivity|now apply ST]. }
    cbn [x_table x_live length] in *. lia.
  - inversion A; subst. destruct (open NOFILE (x_table s) ProcDir true) as [[fd t1]|] eqn:E; [|discriminate]. cbn [obind] in H.
    apply open_ok in E as (-> & F & O1); [|exact O].
    assert (Q : close ((fd, (ProcDir, true)) :: x_table s) fd = x_table s).
    { unfold close. cbn [filter fst]. rewrite Z.eqb_refl. cbn [negb]. clear - F. induction (x_table s) as [|[a x] t IH]; [reflexivity|].
      cbn [fds map fst In] in F. cbn [filter fst]. destruct (Z.eqb_spec fd a) as [-> | _]; [tauto|]. cbn [negb]. f_equal. apply IH. tauto. }
    rewrite Q in H. injection H as <-. split; [exact O|]. split; [split; assumption|]. split; [exact L|]. split; [exact LN|]. split; [exact ST|]. cbn [length] in C. exact C.
Qed.
Lemma handle_all_inv m : forall s s', inv s m -> handle_all s m = Some s' -> inv s' [].
Proof.
  induction m as [|[r n] m IH]; intros s s' I H; cbn [handle_all] in H; [now injection H as <-|].
  destruct (handle s (r, n)) as [s1|] eqn:E; [|discriminate]. cbn [obind] in H. eapply IH; [|exact H]. eapply handle_inv; eassumption.
Qed.
Lemma xdo_inv s x s' : inv s [] -> xdo s x = Some s' -> inv s' [].
Proof.
  intros I H. destruct x as [l|k]; cbn [xdo] in H.
  - destruct (receive (x_table s) l) as [[m t]|] eqn:E; [|discriminate]. cbn [obind] in H. eapply handle_all_inv; [|exact H].
    destruct I as (O & _ & L & LN & ST & C). destruct (receive_ok _ _ _ _ O E) as (O' & P & M & D & K & LEN).
    split; [exact O'|]. split; [exact P|]. split; [|split; [exact LN|split; [exact ST|]]].
    + rewrite Forall_forall in *. intros x X. cbn [x_table]. now apply K, L.
    + cbn [x_table x_live]. rewrite LEN, C. assert (W : length (nums m) = weight l).
      { subst l. destruct P as [P _]. clear - P. unfold weight. induction P as [|[r n] m A P IH]; [reflexivity|]. unfold nums in *.
        cbn [map snd fst concat flat_map]. rewrite !app_length, IH. f_equal. cbn [fst snd] in A. clear - A. unfold at_ in A. induction A; cbn [length]; auto. }
      cbn [nums map concat length]. lia.
  - destruct (find _ _) as [[k' fd]|] eqn:E; [|now injection H as <-]. injection H as <-.
    apply find_some in E as [IN EQ]. apply Nat.eqb_eq in EQ. cbn in EQ. subst k'.
    destruct I as (O & P & L & LN & ST & C). rewrite Forall_forall in L. pose proof (L _ IN) as LK. cbn [fst snd] in LK.
    split; [eapply close_ok; [exact O|exact LK|discriminate]|]. split; [split; constructor|].
    assert (Q : forall x, In x (x_live s) -> fst x <> k -> snd x <> fd).
    { intros x X NE EQ. apply L in X. rewrite EQ, LK in X. injection X as X. congruence. }
    split.
    { apply Forall_forall. intros x X. cbn [x_live x_table] in *. apply filter_In in X as [X NE]. rewrite lookup_close.
      assert (fst x <> k) by (intro EQ; rewrite EQ, Nat.eqb_refl in NE; discriminate).
      destruct (Z.eqb_spec (snd x) fd) as [EQ|_]; [exfalso; now apply (Q x)|now apply L]. }
    split.
    { cbn [x_live]. clear - LN. induction (x_live s) as [|[a b] l IH]; [constructor|]. cbn [map fst] in LN. inversion_clear LN as [|? ? X Y].
      cbn [filter fst]. destruct (Nat.eqb a k); cbn [negb map fst]; [now apply IH|]. constructor; [|now apply IH].
      intro I. apply X. apply in_map_iff in I as (z & <- & Z0). apply filter_In in Z0 as [Z0 _]. now apply in_map. }
    split; [exact ST|].
    assert (LL : S (length (filter (fun x => negb (Nat.eqb (fst x) k)) (x_live s))) = length (x_live s)).
    { clear - LN IN. induction (x_live s) as [|[a b] l IH]; [destruct IN|]. cbn [map fst] in LN. inversion_clear LN as [|? ? X Y].
      cbn [filter fst]. destruct (Nat.eqb_spec a k) as [-> | NE]; cbn [negb length].
      - f_equal. f_equal. clear - X. induction l as [|[a b] l IH]; [reflexivity|]. cbn [map fst In] in X. cbn [filter fst].
        destruct (Nat.eqb_spec a k) as [-> | _]; [tauto|]. cbn [negb]. f_equal. apply IH. tauto.
      - f_equal. apply IH; [exact Y|]. destruct IN as [IN|IN]; [congruence|exact IN]. }
    pose proof (close_length (x_table s) fd (proj1 O) (lookup_fds _ _ _ LK)) as CL. cbn [x_table x_live nums map concat length] in *. lia.
Qed.

Definition start : exs := Eval vm_compute in match executor_start [] with Some s => s | None => Exs [] [] [] end.
Lemma start_eq : executor_start [] = Some start.
Proof. vm_compute. reflexivity. Qed.
Lemma start_inv : inv start [].
Proof.
  unfold start. split; [|split; [split; constructor|split; [constructor|split; [constructor|split; [intros ? ? []|reflexivity]]]]].
  split; [|split; [|split; [|reflexivity]]].
  - cbn [x_table fds map fst]. repeat (constructor; [cbn [In]; intuition discriminate|]). constructor.
  - cbn [x_table]. repeat constructor; cbn [fst]; unfold NOFILE; lia.
  - cbn [x_table]. repeat constructor.
Qed.
Lemma xrun_inv h : forall s s', inv s [] -> xrun s h = Some s' -> inv s' [].
Proof.
  induction h as [|x h IH]; intros s s' I H; cbn [xrun] in H; [now injection H as <-|].
  destruct (xdo s x) as [s1|] eqn:E; [|discriminate]. cbn [obind] in H. eapply IH; [|exact H]. eapply xdo_inv; eassumption.
Qed.

(* C119: whatever the executor has been asked to do before, a program's process has no other files than its own input and output,
   and its own debug output if that was requested. *)
Theorem program_files h s0 s k child debug : executor_start [] = Some s0 -> xrun s0 h = Some s -> In (k, child) (x_started s) ->
  exists t, load child k debug = Some t /\
  forall fd, lookup t fd = if fd =? 0 then Some (Input k, false) else if fd =? 1 then Some (Output k, false)
                           else if (fd =? 2) && debug then Some (Debug k, true) else None.
Proof.
  rewrite start_eq. intros H R I. injection H as <-. apply xrun_inv in R as (_ & _ & _ & _ & ST & _); [|exact start_inv].
  apply ST in I as ->. destruct debug; eexists; (split; [vm_compute; reflexivity|]); intro fd; cbn [lookup].
  - destruct (Z.eqb_spec fd 2) as [-> | _]; [reflexivity|]. destruct (Z.eqb_spec fd 1) as [-> | _]; [reflexivity|].
    now destruct (Z.eqb_spec fd 0).
  - destruct (Z.eqb_spec fd 1) as [-> | _]; [reflexivity|]. destruct (Z.eqb_spec fd 0) as [-> | _]; [reflexivity|].
    now destruct (fd =? 2).
Qed.
Print Assumptions program_files.

(* C119: the executor doesn't leak files: there are as many as there are processes, apart from its own eight. *)
Theorem executor_files h s0 s : executor_start [] = Some s0 -> xrun s0 h = Some s ->
  length (x_table s) = (8 + length (x_live s))%nat /\ NoDup (map fst (x_live s)) /\
  (forall k fd, In (k, fd) (x_live s) -> lookup (x_table s) fd = Some (Pidfd k, true)).
Proof.
  rewrite start_eq. intros H R. injection H as <-. apply xrun_inv in R as (_ & _ & L & LN & _ & C); [|exact start_inv].
  split; [cbn [nums map concat length] in C; lia|]. split; [exact LN|]. intros k fd I. rewrite Forall_forall in L. exact (L _ I).
Qed.
Print Assumptions executor_files.

Definition creates (l : list req) : list nat := flat_map (fun r => match r with Create k _ => [k] | Suspend _ => [] end) l.
Lemma open_all_total l : forall t, ok t -> Z.of_nat (length l + length t) <= NOFILE -> open_all t l <> None.
Proof.
  induction l as [|o l IH]; intros t O L H; cbn [open_all] in H; [discriminate|]. cbn [length] in L.
  destruct (open NOFILE t o true) as [[fd t1]|] eqn:E; cbn [obind] in H.
  - apply open_ok in E as (-> & F & O1); [|exact O]. specialize (IH _ O1). cbn [length] in IH.
    destruct (open_all _ l) as [[r t2]|]; [discriminate|]. apply IH; [lia|reflexivity].
  - eapply open_total; [|exact E]. lia.
Qed.
Lemma receive_total l : forall t, ok t -> Z.of_nat (weight l + length t) <= NOFILE -> receive t l <> None.
Proof.
  induction l as [|r l IH]; intros t O L H; cbn [receive] in H; [discriminate|]. unfold weight in L. cbn [flat_map] in L. rewrite app_length in L.
  fold (weight l) in L. pose proof (open_all_total (rights r) t O ltac:(lia)) as T.
  destruct (open_all t (rights r)) as [[n t1]|] eqn:E; [|congruence]. cbn [obind] in H.
  destruct (open_all_ok _ _ _ _ O E) as (O1 & _ & _ & _ & _ & L1). specialize (IH t1 O1).
  destruct (receive t1 l) as [[m t2]|]; [discriminate|]. apply IH; [lia|reflexivity].
Qed.
Lemma handle_all_total m : forall s, inv s m -> NoDup (creates (map fst m)) ->
  (forall k, In k (creates (map fst m)) -> ~ In k (map fst (x_live s))) ->
  Z.of_nat (length (x_table s)) + 1 <= NOFILE -> handle_all s m <> None.
Proof.
  induction m as [|[r n] m IH]; intros s I N D L H; cbn [handle_all] in H; [discriminate|].
  destruct (handle s (r, n)) as [s1|] eqn:E; cbn [obind] in H.
  - pose proof (handle_inv _ _ _ _ _ I E) as I1. apply (IH s1 I1); [| | |exact H].
    + cbn [map fst] in N. destruct r; cbn [creates flat_map app] in N; [inversion_clear N; assumption|exact N].
    + intros k K. cbn [map fst] in N, D. destruct r as [k0 g|k0]; cbn [handle] in E.
      * destruct (existsb _ _); [discriminate|]. destruct (open NOFILE _ _ _) as [[pfd t1]|]; [|discriminate]. cbn [obind] in E.
        destruct (execute_child _ _); [|discriminate]. cbn [obind] in E. injection E as <-. cbn [x_live map fst].
        cbn [creates flat_map app] in N, D. inversion_clear N as [|? ? N1 N2]. intros [<- | X]; [now apply N1|]. apply (D k); [now right|exact X].
      * destruct (open NOFILE _ _ _) as [[pfd t1]|]; [|discriminate]. cbn [obind] in E. injection E as <-. cbn [x_live]. now apply D.
    + destruct I as (_ & P & _ & _ & _ & C). destruct I1 as (_ & _ & _ & _ & _ & C1).
      unfold nums in C. cbn [map snd concat] in C. fold (nums m) in C. rewrite app_length in C.
      destruct P as [P _]. inversion P as [|? ? A _]; subst. cbn [fst snd] in A.
      destruct r as [k0 g|k0]; cbn [handle] in E.
      * destruct (existsb _ _); [discriminate|]. destruct (open NOFILE _ _ _) as [[pfd t1]|]; [|discriminate]. cbn [obind] in E.
        destruct (execute_child _ _); [|discriminate]. cbn [obind] in E. injection E as <-. cbn [x_live x_table length] in *.
        assert (2 <= length n)%nat by (destruct g; cbn [rights] in A; inversion A as [|? ? ? ? ? A2]; subst; inversion A2; subst; cbn [length]; lia).
        lia.
      * destruct (open NOFILE _ _ _) as [[pfd t1]|]; [|discriminate]. cbn [obind] in E. injection E as <-. cbn [x_live x_table length] in *. lia.
  - destruct I as (O & P & _). destruct P as [P _]. inversion P as [|? ? A _]; subst. cbn [fst snd] in A.
    destruct r as [k0 g|k0]; cbn [handle] in E.
    + destruct (existsb _ _) eqn:X.
      { apply existsb_exists in X as (x & X & Y). apply Nat.eqb_eq in Y. cbn [map fst creates flat_map app] in D. apply (D k0); [now left|]. subst k0. now apply in_map. }
      destruct (open NOFILE _ _ _) as [[pfd t1]|] eqn:E2; [|eapply open_total; [|exact E2]; lia]. cbn [obind] in E.
      assert (CH : execute_child (x_table s) n = Some (born k0)).
      { destruct g; cbn [rights] in A; inversion A as [|? ? ? ? A1 A2]; subst; inversion A2 as [|? ? ? ? A3 A4]; subst; now apply execute_child_ok. }
      rewrite CH in E. discriminate.
    + destruct (open NOFILE _ _ _) as [[pfd t1]|] eqn:E2; [discriminate|]. eapply open_total; [|exact E2]. lia.
Qed.
Lemma batch_total s l : inv s [] -> NoDup (creates l) -> (forall k, In k (creates l) -> ~ In k (map fst (x_live s))) ->
  9 + Z.of_nat (length (x_live s)) + Z.of_nat (weight l) <= NOFILE -> xdo s (Batch l) <> None.
Proof.
  intros I N D L H. cbn [xdo] in H. pose proof I as (O & _ & LV & LN & ST & C). cbn [nums map concat length] in C.
  pose proof (receive_total l (x_table s) O ltac:(lia)) as T. destruct (receive (x_table s) l) as [[m t]|] eqn:E; [|congruence]. cbn [obind] in H.
  destruct (receive_ok _ _ _ _ O E) as (O' & P & M & DJ & K & LEN).
  assert (W : length (nums m) = weight l).
  { subst l. destruct P as [P _]. clear - P. unfold weight. induction P as [|[r n] m A P IH]; [reflexivity|]. unfold nums in *.
    cbn [map snd fst concat flat_map]. rewrite !app_length, IH. f_equal. cbn [fst snd] in A. clear - A. unfold at_ in A. induction A; cbn [length]; auto. }
  revert H. apply handle_all_total.
  - split; [exact O'|]. split; [exact P|]. split; [|split; [exact LN|split; [exact ST|]]].
    + rewrite Forall_forall in *. intros x X. cbn [x_table]. now apply K, LV.
    + cbn [x_table x_live]. lia.
  - now rewrite M.
  - rewrite M. exact D.
  - cbn [x_table]. lia.
Qed.

(* C119: the executor doesn't run out of descriptors if the files that come with a batch of requests fit. *)
Theorem executor_descriptors h s0 s l : executor_start [] = Some s0 -> xrun s0 h = Some s -> NoDup (creates l) ->
  (forall k, In k (creates l) -> ~ In k (map fst (x_live s))) ->
  Z.of_nat (length (x_live s)) + Z.of_nat (length (flat_map rights l)) <= 16384 + 4 -> xdo s (Batch l) <> None.
Proof.
  rewrite start_eq. intros H R N D L. injection H as <-. apply batch_total; [eapply xrun_inv; [exact start_inv|exact R]|exact N|exact D|].
  unfold weight, NOFILE. lia.
Qed.
Print Assumptions executor_descriptors.
Example executor_case : exists s0 s, executor_start [] = Some s0 /\
  xrun s0 [Batch [Create 0 false; Suspend 0; Create 1 true]; Reap 0; Batch [Create 2 false; Suspend 1]] = Some s /\
  map fst (x_live s) = [2; 1]%nat /\ map fst (x_started s) = [2; 1; 0]%nat /\ fds (x_table s) = [11; 8; 5; 7; 6; 4; 3; 2; 1; 0].
Proof. eexists. eexists. split; [vm_compute; reflexivity|]. split; [vm_compute; reflexivity|]. repeat split. Qed.

(* processes 0 .. n-1 *)
Lemma many n : Z.of_nat n <= 16384 -> exists h s, xrun start h = Some s /\ map fst (x_live s) = rev (seq 0 n).
Proof.
  induction n as [|n IH]; intro L; [exists [], start; split; reflexivity|].
  destruct IH as (h & s & R & M); [lia|]. pose proof (xrun_inv _ _ _ start_inv R) as I.
  assert (LL : length (x_live s) = n) by (rewrite <- (map_length fst), M, rev_length, seq_length; reflexivity).
  assert (T : xdo s (Batch [Create n false]) <> None).
  { apply batch_total; [exact I|repeat constructor; intros []| |cbn [weight flat_map rights app length]; unfold NOFILE; lia].
    intros k [<- | []]. rewrite M, <- in_rev, in_seq. lia. }
  destruct (xdo s (Batch [Create n false])) as [s'|] eqn:E; [|congruence].
  exists (h ++ [Batch [Create n false]]), s'. split.
  - clear - R E. revert R. generalize start. induction h as [|x h IH]; intros a R; cbn [xrun app] in *.
    + injection R as ->. rewrite E. reflexivity.
    + destruct (xdo a x); [|discriminate]. cbn [obind] in *. now apply IH.
  - cbn [xdo receive rights] in E. destruct (open_all (x_table s) [Input n; Output n]) as [[fdn t]|]; [|discriminate]. cbn [obind handle_all handle x_live x_table] in E.
    destruct (existsb _ _); [discriminate|]. destruct (open NOFILE t _ true) as [[p t1]|]; [|discriminate]. cbn [obind] in E.
    destruct (execute_child _ _); [|discriminate]. cbn [obind] in E. injection E as <-. cbn [x_live map fst]. rewrite M, seq_S, rev_app_distr. reflexivity.
Qed.
(* C119: that isn't always so, even if there are never more processes than there are ids: five requests at once, when there are
   already 16379 processes, are fatal to all of them. *)
Theorem executor_descriptors_refuted :
  ~ (forall h s0 s l, executor_start [] = Some s0 -> xrun s0 h = Some s -> NoDup (creates l) ->
     (forall k, In k (creates l) -> ~ In k (map fst (x_live s))) ->
     Z.of_nat (length (x_live s)) + Z.of_nat (length (creates l)) <= 16384 -> xdo s (Batch l) <> None).
Proof.
  intro A. destruct (many (Z.to_nat 16379)) as (h & s & R & M); [lia|]. pose proof (xrun_inv _ _ _ start_inv R) as I.
  assert (LL : length (x_live s) = Z.to_nat 16379) by (rewrite <- (map_length fst), M, rev_length, seq_length; reflexivity).
  set (k := Z.to_nat 16379) in *.
  set (l := [Create k false; Create (k + 1) false; Create (k + 2) false; Create (k + 3) false; Create (k + 4) false]).
  apply (A h start s l start_eq R).
  - cbn [l creates flat_map app]. repeat constructor; cbn [In]; lia.
  - intros x X. rewrite M, <- in_rev, in_seq. cbn [l creates flat_map app In] in X. lia.
  - rewrite LL. cbn [l creates flat_map app length]. lia.
  - cbn [xdo]. destruct (receive (x_table s) l) as [[m t]|] eqn:E; [|reflexivity]. cbn [obind].
    pose proof I as (O & _ & _ & _ & _ & C). destruct (receive_ok _ _ _ _ O E) as (O' & _ & Q & _ & _ & LEN).
    destruct m as [|[r n] m]; [discriminate Q|]. cbn [map fst l] in Q. injection Q as -> _. cbn [handle_all handle x_live x_table].
    destruct (existsb _ _); [reflexivity|]. rewrite open_fails; [reflexivity|exact O'|].
    rewrite LEN, C, LL. unfold weight. cbn [l flat_map rights app length nums map concat]. unfold NOFILE, k. lia.
Qed.
Print Assumptions executor_descriptors_refuted.

(* C119: files that the server itself was started with are passed to the programs' processes, if they aren't closed on exec. *)
Theorem server_files_refuted :
  ~ (forall inherited h s0 s k child t fd n c, executor_start inherited = Some s0 -> xrun s0 h = Some s -> In (k, child) (x_started s) ->
     load child k false = Some t -> lookup t fd <> Some (Host n, c)).
Proof.
  intro A.
  refine (A [(9, (Host 0, false))] [Batch [Create 0 false]] _ _ 0%nat _ _ 9 0%nat false _ _ _ _ _).
  - vm_compute. reflexivity.
  - vm_compute. reflexivity.
  - cbn [x_started]. left. reflexivity.
  - vm_compute. reflexivity.
  - vm_compute. reflexivity.
Qed.
Print Assumptions server_files_refuted.
