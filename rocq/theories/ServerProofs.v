(* ServerProofs.v: lemmas for ServerProps.v *)
From Verif Require Import ServerSpec BaseLemmas ListLemmas.

Definition cnt (h : list nat) (o : nat) : nat := count_occ Nat.eq_dec h o.
Lemma cnt_app a b o : cnt (a ++ b) o = (cnt a o + cnt b o)%nat.
Proof. apply count_occ_app. Qed.
Lemma cnt_cons x l o : cnt (x :: l) o = ((if Nat.eq_dec x o then 1 else 0) + cnt l o)%nat.
Proof. unfold cnt. cbn. destruct (Nat.eq_dec x o); reflexivity. Qed.
Lemma cnt_nil o : cnt [] o = 0%nat.
Proof. reflexivity. Qed.
Lemma cnt_in l o : In o l <-> (0 < cnt l o)%nat.
Proof. unfold cnt. rewrite (count_occ_In Nat.eq_dec). lia. Qed.

Ltac cnts := cbn [app]; repeat first [rewrite cnt_app | rewrite cnt_cons | rewrite cnt_nil]; lia.

(* ---- lists ---- *)

Lemma nth_error_set {A} n (x y : A) l k : nth_error l n = Some y ->
  nth_error (set_nth n x l) k = if Nat.eqb k n then Some x else nth_error l k.
Proof.
  intros H. unfold set_nth. assert (L: (n < length l)%nat) by (apply nth_error_Some; congruence).
  destruct (Nat.eqb_spec k n) as [->|N].
  - rewrite nth_error_app2; rewrite firstn_length_le by lia; [|lia]. now rewrite Nat.sub_diag.
  - destruct (Nat.lt_ge_cases k n).
    + rewrite nth_error_app1 by (rewrite firstn_length_le; lia). rewrite <- (firstn_skipn n l) at 2.
      now rewrite nth_error_app1 by (rewrite firstn_length_le; lia).
    + rewrite nth_error_app2 by (rewrite firstn_length_le; lia). rewrite firstn_length_le by lia.
      replace (k - n)%nat with (S (k - n - 1)) by lia. cbn [nth_error].
      rewrite <- (firstn_skipn (S n) l) at 2. rewrite nth_error_app2 by (rewrite firstn_length_le; lia).
      rewrite firstn_length_le by lia. f_equal. lia.
Qed.
Lemma length_set {A} n (x y : A) l : nth_error l n = Some y -> length (set_nth n x l) = length l.
Proof.
  intros H. assert (L: (n < length l)%nat) by (apply nth_error_Some; congruence).
  unfold set_nth. rewrite app_length. cbn [length]. rewrite firstn_length_le, skipn_length by lia. lia.
Qed.
Lemma split_nth {A} n (y : A) l : nth_error l n = Some y -> l = firstn n l ++ y :: skipn (S n) l.
Proof.
  revert l; induction n as [|n IH]; intros [|a l] H; try discriminate.
  - cbn in H. now inversion H.
  - cbn [firstn skipn app]. f_equal. now apply IH.
Qed.
Lemma cnt_set_threads t g0 g l o : nth_error l t = Some g0 ->
  (cnt (flat_map held (set_nth t g l)) o + cnt (held g0) o = cnt (flat_map held l) o + cnt (held g) o)%nat.
Proof.
  intros H. rewrite (split_nth _ _ _ H) at 2. unfold set_nth. rewrite !flat_map_app. cbn [flat_map]. rewrite !cnt_app. lia.
Qed.
Lemma in_set {A} n (x : A) l y : In y (set_nth n x l) -> y = x \/ In y l.
Proof.
  unfold set_nth. intros H. apply in_app_or in H as [H|[H|H]]; auto.
  - right. rewrite <- (firstn_skipn n l). apply in_or_app. now left.
  - right. rewrite <- (firstn_skipn (S n) l). apply in_or_app. now right.
Qed.

(* ---- reference counts ---- *)

Definition balanced (l : list obj) (h : list nat) : Prop :=
  (forall o b, nth_error l o = Some b -> refs b = Z.of_nat (cnt h o) /\ opened b = (0 <? refs b)) /\
  (forall o, In o h -> (o < length l)%nat).

Lemma bal_eq l h h' : (forall o, cnt h o = cnt h' o) -> balanced l h -> balanced l h'.
Proof.
  intros E [A B]. split.
  - intros o b H. destruct (A o b H) as [X Y]. rewrite <- E. auto.
  - intros o H. apply B. rewrite cnt_in in *. now rewrite E.
Qed.
Definition same_ids (l l' : list obj) : Prop := map pid l = map pid l'.
Lemma same_ids_nth l l' o : same_ids l l' -> option_map pid (nth_error l o) = option_map pid (nth_error l' o).
Proof. intros H. rewrite <- !nth_error_map. now rewrite H. Qed.
Lemma set_ids o b b' l : nth_error l o = Some b -> pid b' = pid b -> same_ids l (set_nth o b' l).
Proof.
  intros H E. unfold same_ids. rewrite (split_nth _ _ _ H) at 1. unfold set_nth. rewrite !map_app. cbn [map]. now rewrite E.
Qed.
Lemma ref_ids o l l' : ref o l = Ok l' -> same_ids l l'.
Proof.
  unfold ref. destruct (nth_error l o) as [b|] eqn:E; [|discriminate]. destruct (refs b <=? 0); [discriminate|].
  intros H. inversion H. eapply set_ids; eauto.
Qed.
Lemma unref_ids o l l' : unref o l = Ok l' -> same_ids l l'.
Proof.
  unfold unref. destruct (nth_error l o) as [b|] eqn:E; [|discriminate]. destruct (refs b <=? 0); [discriminate|].
  intros H. inversion H. eapply set_ids; eauto.
Qed.
Lemma unref_all_ids os : forall l l', unref_all os l = Ok l' -> same_ids l l'.
Proof.
  induction os as [|o t IH]; intros l l' H; cbn in H; [now inversion H|].
  destruct (unref o l) eqn:E; try discriminate. cbn in H. apply unref_ids in E. apply IH in H. unfold same_ids in *. congruence.
Qed.

Lemma ref_bal l h o : balanced l h -> In o h -> exists l', ref o l = Ok l' /\ balanced l' (o :: h).
Proof.
  intros [A B] H. pose proof (B o H) as L. apply nth_error_Some in L. unfold ref.
  destruct (nth_error l o) as [b|] eqn:E; [|congruence]. destruct (A o b E) as [R O].
  apply cnt_in in H. destruct (Z.leb_spec (refs b) 0); [lia|].
  eexists. split; [reflexivity|]. split.
  - intros o' b' H'. rewrite (nth_error_set _ _ _ _ _ E) in H'. rewrite cnt_cons.
    destruct (Nat.eqb_spec o' o) as [->|N].
    + inversion H'. cbn [refs opened]. destruct (Nat.eq_dec o o); [|congruence]. split; [lia|].
      rewrite O. lia.
    + destruct (Nat.eq_dec o o'); [congruence|]. destruct (A o' b' H'). auto.
  - intros o' H'. rewrite (length_set _ _ _ _ E). destruct H' as [<-|H']; auto. apply B. apply cnt_in. auto.
Qed.
Lemma unref_bal l h h' o : balanced l h -> (forall x, cnt h x = cnt (o :: h') x) -> exists l', unref o l = Ok l' /\ balanced l' h'.
Proof.
  intros [A B] Eh. assert (H: In o h) by (apply cnt_in; rewrite Eh, cnt_cons; destruct (Nat.eq_dec o o); [lia|congruence]).
  pose proof (B o H) as L. apply nth_error_Some in L. unfold unref.
  destruct (nth_error l o) as [b|] eqn:E; [|congruence]. destruct (A o b E) as [R O].
  apply cnt_in in H. destruct (Z.leb_spec (refs b) 0); [lia|].
  eexists. split; [reflexivity|]. split.
  - intros o' b' H'. rewrite (nth_error_set _ _ _ _ _ E) in H'. pose proof (Eh o') as Eo. rewrite cnt_cons in Eo.
    destruct (Nat.eqb_spec o' o) as [->|N].
    + inversion H'. cbn [refs opened]. destruct (Nat.eq_dec o o); [|congruence]. split; [lia|].
      rewrite O. destruct (Z.eqb_spec (refs b - 1) 0); lia.
    + destruct (Nat.eq_dec o o'); [congruence|]. destruct (A o' b' H') as [X Y]. split; auto. lia.
  - intros o' H'. rewrite (length_set _ _ _ _ E). apply B. apply cnt_in. rewrite Eh, cnt_cons. apply cnt_in in H'. lia.
Qed.
Lemma new_bal l h m : balanced l h -> balanced (l ++ [Obj m 1 true]) (length l :: h).
Proof.
  intros [A B]. split.
  - intros o b H. rewrite cnt_cons. destruct (Nat.lt_ge_cases o (length l)).
    + rewrite nth_error_app1 in H by lia. destruct (Nat.eq_dec (length l) o); [lia|]. destruct (A o b H). split; auto.
    + assert (o = length l). { assert (nth_error (l ++ [Obj m 1 true]) o <> None) by congruence. apply nth_error_Some in H1. rewrite app_length in H1. cbn in H1. lia. }
      subst o. rewrite nth_error_app2, Nat.sub_diag in H by lia. cbn in H. inversion H. cbn [refs opened].
      destruct (Nat.eq_dec (length l) (length l)); [|congruence].
      replace (cnt h (length l)) with 0%nat; [split; lia|].
      destruct (cnt h (length l)) eqn:E; auto. exfalso. assert (X: In (length l) h) by (apply cnt_in; lia). apply B in X. lia.
  - intros o H. rewrite app_length. cbn [length]. destruct H as [<-|H]; [lia|]. apply B in H. lia.
Qed.
Lemma unref_all_bal os : forall l h h', balanced l h -> (forall x, cnt h x = cnt (os ++ h') x) ->
  exists l', unref_all os l = Ok l' /\ balanced l' h'.
Proof.
  induction os as [|o t IH]; intros l h h' B E; cbn [unref_all app] in *.
  - exists l. split; auto. eapply bal_eq; eauto.
  - destruct (unref_bal l h (t ++ h') o B E) as (l1 & -> & B1). cbn [bind]. eapply IH; eauto.
Qed.

Lemma exact_balanced s : exact s <-> balanced (objs s) (holders s).
Proof.
  unfold exact, balanced. split; intros [A B]; split.
  - intros o b H. destruct (A o b H) as [X Y]. split; auto.
    rewrite cnt_in in Y. destruct (Z.ltb_spec 0 (refs b)); [apply Y; unfold cnt in *; lia|].
    destruct (opened b); auto. exfalso. destruct Y as [Y _]. specialize (Y eq_refl). unfold cnt in *. lia.
  - intros o H. destruct (B o H) as [b Hb]. apply nth_error_Some. congruence.
  - intros o b H. destruct (A o b H) as [X Y]. split; auto. rewrite Y, cnt_in. unfold cnt in *. lia.
  - intros o H. apply B in H. apply nth_error_Some in H. destruct (nth_error (objs s) o); [eauto|congruence].
Qed.

(* ---- structure of the maps ---- *)

Definition pid_of (s : st) (o : nat) : option Z := option_map pid (nth_error (objs s) o).
Definition canonical (s : st) (o : nat) : Prop := exists m, In (m, o) (progs s).
Record wf (s : st) : Prop := {
  wf_keys : NoDup (map fst (progs s));
  wf_progs : forall m o, In (m, o) (progs s) -> pid_of s o = Some m;
  wf_pins : forall p o ts, In (p, o, ts) (pins s) -> canonical s o;
  wf_pinkeys : NoDup (map fst (pins s));
  wf_insts : forall p i n o, In (p, i, n, o) (insts s) -> canonical s o /\ (n < ninsts s)%nat;
  wf_instkeys : NoDup (map (fun x => fst (fst x)) (insts s));
  wf_instnos : NoDup (map (fun x => snd (fst x)) (insts s));
  wf_closed : closed s = true -> progs s = [] /\ pins s = [] /\ insts s = []
}.

Lemma find_prog_in s m o : find_prog s m = Some o -> In (m, o) (progs s).
Proof.
  unfold find_prog. destruct (find _ (progs s)) as [[m' o']|] eqn:E; [|discriminate]. cbn. intros H. inversion H; subst.
  apply find_some in E as [E F]. cbn in F. apply Z.eqb_eq in F. now subst.
Qed.
Lemma nodup_fst_eq {A B} (l : list (A * B)) a b b' : NoDup (map fst l) -> In (a, b) l -> In (a, b') l -> b = b'.
Proof.
  induction l as [|[x y] l IH]; intros N H H'; [contradiction|]. cbn in N. inversion N as [|? ? N1 N2]; subst.
  destruct H as [H|H], H' as [H'|H'].
  - congruence.
  - exfalso. apply N1. inversion H; subst. now apply (in_map fst) in H'.
  - exfalso. apply N1. inversion H'; subst. now apply (in_map fst) in H.
  - now apply IH.
Qed.
Lemma in_find_prog s m o : wf s -> In (m, o) (progs s) -> find_prog s m = Some o.
Proof.
  intros W H. unfold find_prog. destruct (find (fun x => fst x =? m) (progs s)) as [[m' o']|] eqn:E.
  - apply find_some in E as [E F]. cbn in F. apply Z.eqb_eq in F. subst m'. cbn. f_equal. eapply nodup_fst_eq; eauto. apply W.
  - exfalso. apply (find_none _ _ E) in H. cbn in H. lia.
Qed.
Lemma find_pin_in s p o ts : find_pin s p o = Some ts -> In (p, o, ts) (pins s).
Proof.
  unfold find_pin. destruct (find _ (pins s)) as [[[p' o'] ts']|] eqn:E; [|discriminate]. cbn. intros H. inversion H; subst.
  apply find_some in E as [E F]. unfold pin_is in F. cbn in F. apply andb_prop in F as [F1 F2].
  apply Z.eqb_eq in F1. apply Nat.eqb_eq in F2. now subst.
Qed.
Lemma in_find_pin s p o ts : wf s -> In (p, o, ts) (pins s) -> find_pin s p o = Some ts.
Proof.
  intros W H. unfold find_pin. destruct (find (pin_is p o) (pins s)) as [[[p' o'] ts']|] eqn:E.
  - apply find_some in E as [E F]. unfold pin_is in F. cbn in F. apply andb_prop in F as [F1 F2].
    apply Z.eqb_eq in F1. apply Nat.eqb_eq in F2. subst. cbn. f_equal. eapply nodup_fst_eq; eauto. apply W.
  - exfalso. apply (find_none _ _ E) in H. unfold pin_is in H. cbn in H. rewrite Z.eqb_refl, Nat.eqb_refl in H. discriminate.
Qed.
Lemma find_inst_in s p i n o : find_inst s p i = Some (n, o) -> In (p, i, n, o) (insts s).
Proof.
  unfold find_inst. destruct (find _ (insts s)) as [[[[p' i'] n'] o']|] eqn:E; [|discriminate]. cbn. intros H. inversion H; subst.
  apply find_some in E as [E F]. unfold inst_is in F. cbn in F. apply andb_prop in F as [F1 F2].
  apply Z.eqb_eq in F1. apply Z.eqb_eq in F2. now subst.
Qed.
Lemma nodup_key_eq {A K} (f : A -> K) (l : list A) a b : NoDup (map f l) -> In a l -> In b l -> f a = f b -> a = b.
Proof.
  induction l as [|x l IH]; intros N H H' E; [contradiction|]. cbn in N. inversion N as [|? ? N1 N2]; subst.
  destruct H as [<-|H], H' as [<-|H']; auto.
  - exfalso. apply N1. rewrite E. now apply in_map.
  - exfalso. apply N1. rewrite <- E. now apply in_map.
Qed.
Lemma in_find_inst s p i n o : wf s -> In (p, i, n, o) (insts s) -> find_inst s p i = Some (n, o).
Proof.
  intros W H. unfold find_inst. destruct (find (inst_is p i) (insts s)) as [[[[p' i'] n'] o']|] eqn:E.
  - apply find_some in E as [E F]. unfold inst_is in F. cbn in F. apply andb_prop in F as [F1 F2].
    apply Z.eqb_eq in F1. apply Z.eqb_eq in F2. subst.
    pose proof (nodup_key_eq _ _ _ _ (wf_instkeys s W) E H eq_refl) as X. inversion X. reflexivity.
  - exfalso. apply (find_none _ _ E) in H. unfold inst_is in H. cbn in H. rewrite !Z.eqb_refl in H. discriminate.
Qed.

(* ---- one step: counts and structure ---- *)

Definition maps (s : st) : list nat :=
  map snd (progs s) ++ map (fun x => snd (fst x)) (pins s) ++ map snd (insts s).
Lemma holders_maps s : holders s = maps s ++ flat_map held (threads s).
Proof. unfold holders, maps. now rewrite <- !app_assoc. Qed.
Definition rest (s : st) (t : nat) : list nat := flat_map held (firstn t (threads s)) ++ flat_map held (skipn (S t) (threads s)).
Ltac rst s t := repeat match goal with |- context [rest ?y t] => progress change (rest y t) with (rest s t) end.
Lemma threads_rest s t g x : nth_error (threads s) t = Some g ->
  cnt (flat_map held (threads s)) x = (cnt (held g) x + cnt (rest s t) x)%nat.
Proof.
  intros H. rewrite (split_nth _ _ _ H) at 1. unfold rest. rewrite flat_map_app. cbn [flat_map]. rewrite !cnt_app. lia.
Qed.
Lemma set_rest s t g x : cnt (flat_map held (set_nth t g (threads s))) x = (cnt (held g) x + cnt (rest s t) x)%nat.
Proof. unfold set_nth, rest. rewrite flat_map_app. cbn [flat_map]. rewrite !cnt_app. lia. Qed.

(* only a snapshot has another reference to release, and it launches nothing *)
Definition treg (g : stage) : Prop := match g with SReg _ a l => launch a <> None -> l = [] | _ => True end.
Record inv (s : st) : Prop := { i_bal : balanced (objs s) (holders s); i_wf : wf s; i_reg : Forall treg (threads s) }.

Lemma wf_ext s s' : same_ids (objs s) (objs s') -> closed s' = closed s -> progs s' = progs s -> pins s' = pins s ->
  insts s' = insts s -> ninsts s' = ninsts s -> wf s -> wf s'.
Proof.
  intros E1 E2 E3 E4 E5 E6 [A B C D E F G H]. constructor; rewrite ?E2, ?E3, ?E4, ?E5, ?E6; auto.
  - intros m o K. unfold pid_of. rewrite <- (same_ids_nth _ _ o E1). now apply B.
  - intros p o ts K. destruct (C p o ts K) as [m M]. exists m. now rewrite E3.
  - intros p i n o K. destruct (E p i n o K) as [[m M] N]. split; auto. exists m. now rewrite E3.
Qed.
Lemma same_ids_refl l : same_ids l l.
Proof. reflexivity. Qed.
Local Hint Resolve same_ids_refl : core.

Lemma goto_inv s t g s' : goto s t g = Ok s' -> wf s -> Forall treg (threads s) -> treg g -> balanced (objs s) (maps s ++ held g ++ rest s t) -> inv s'.
Proof.
  unfold goto. intros H W F G B. inversion H; subst s'; clear H. constructor.
  - rewrite holders_maps. unfold maps. cbn [objs progs pins insts threads]. eapply bal_eq; [|exact B]. intros x. unfold maps. rewrite !cnt_app, set_rest. lia.
  - revert W. apply wf_ext; auto.
  - cbn [threads]. rewrite Forall_forall in *. intros x Hx. apply in_set in Hx as [->|Hx]; auto.
Qed.

(* the state of a thread in the middle of a step: the maps, and its own references *)
Definition mid (s : st) (own : list nat) (t : nat) : Prop :=
  (wf s /\ Forall treg (threads s)) /\ balanced (objs s) (maps s ++ own ++ rest s t).

Lemma inv_mid s t g : inv s -> nth_error (threads s) t = Some g -> mid s (held g) t.
Proof.
  intros [B W F] H. split; auto. eapply bal_eq; [|exact B]. intros x. rewrite holders_maps, !cnt_app. rewrite (threads_rest s t g x H). lia.
Qed.
Lemma mid_goto s own t g : mid s own t -> treg g -> (forall x, cnt own x = cnt (held g) x) -> match goto s t g with Ok s' => inv s' | _ => False end.
Proof.
  intros [[W F] B] T E. destruct (goto s t g) eqn:G; try discriminate. eapply goto_inv; eauto.
  eapply bal_eq; [|exact B]. intros x. rewrite !cnt_app, E. lia.
Qed.
Lemma mid_log s own t e : mid s own t -> mid (log s e) own t.
Proof. intros [[W F] B]. split; auto. split; auto. revert W. apply wf_ext; auto. Qed.
Lemma rest_threads s s' t : threads s' = threads s -> rest s' t = rest s t.
Proof. unfold rest. now intros ->. Qed.

Lemma mid_ref s own t o : mid s own t -> In o (maps s ++ own) ->
  exists l, ref o (objs s) = Ok l /\ mid (with_objs s l) (o :: own) t.
Proof.
  intros [W B] H. destruct (ref_bal _ _ o B) as (l & E & B').
  { rewrite app_assoc. apply in_or_app. now left. }
  exists l. split; auto. split.
  - destruct W as [W F]. split; auto. revert W. apply wf_ext; auto. cbn. eapply ref_ids; eauto.
  - change (objs (with_objs s l)) with l. change (maps (with_objs s l)) with (maps s). rewrite (rest_threads s) by reflexivity.
    eapply bal_eq; [|exact B']. intros x. cnts.
Qed.
Lemma mid_unref s own own' t o : mid s own t -> (forall x, cnt own x = cnt (o :: own') x) ->
  exists l, unref o (objs s) = Ok l /\ mid (with_objs s l) own' t.
Proof.
  intros [W B] H. destruct (unref_bal _ _ (maps s ++ own' ++ rest s t) o B) as (l & E & B').
  { intros x. rewrite cnt_cons, !cnt_app, H, cnt_cons. lia. }
  exists l. split; auto. split; auto. destruct W as [W F]. split; auto. revert W. apply wf_ext; auto. cbn. eapply unref_ids; eauto.
Qed.
Lemma mid_new s own t m : mid s own t -> mid (with_objs s (objs s ++ [Obj m 1 true])) (length (objs s) :: own) t.
Proof.
  intros [W B]. split.
  - destruct W as [W Ft]. split; auto. destruct W as [A B1 C D E F G H]. constructor; cbn [with_objs progs pins insts ninsts closed]; auto.
    intros m' o K. specialize (B1 m' o K). unfold pid_of in *. cbn [with_objs objs].
    destruct (nth_error (objs s) o) eqn:X; [|discriminate]. rewrite nth_error_app1; [now rewrite X|]. apply nth_error_Some. congruence.
  - change (maps (with_objs s (objs s ++ [Obj m 1 true]))) with (maps s). rewrite (rest_threads s) by reflexivity.
    eapply bal_eq; [|exact (new_bal _ _ m B)]. intros x. cnts.
Qed.

Lemma canonical_maps s o : canonical s o -> In o (maps s).
Proof. intros [m H]. unfold maps. apply in_or_app. left. now apply (in_map snd) in H. Qed.
Lemma find_prog_canonical s m o : find_prog s m = Some o -> canonical s o.
Proof. intros H. exists m. now apply find_prog_in. Qed.

Lemma map_pins_keys p o ts l : map fst (map (fun x : Z * nat * list Z => if pin_is p o x then (p, o, ts) else x) l) = map fst l.
Proof.
  induction l as [|[[p' o'] ts'] l IH]; cbn [map]; auto. rewrite IH. f_equal. unfold pin_is. cbn [fst snd].
  destruct (Z.eqb_spec p' p), (Nat.eqb_spec o' o); cbn; congruence.
Qed.
Lemma map_pins_objs p o ts l : map (fun x : Z * nat * list Z => snd (fst x)) (map (fun x : Z * nat * list Z => if pin_is p o x then (p, o, ts) else x) l) = map (fun x => snd (fst x)) l.
Proof.
  pose proof (map_pins_keys p o ts l) as H. apply (f_equal (map snd)) in H. rewrite !map_map in H. rewrite map_map. exact H.
Qed.

(* what the sub-operations leave alone *)
Record keeps (s s' : st) : Prop := {
  k_threads : threads s' = threads s; k_progs : progs s' = progs s; k_insts : insts s' = insts s;
  k_ninsts : ninsts s' = ninsts s; k_ids : same_ids (objs s) (objs s'); k_closed : closed s' = closed s }.

Lemma mid_ensure s own t p o ts : mid s own t -> canonical s o ->
  exists s', ensureProgramRef s p o ts = Ok s' /\ mid s' own t /\ keeps s s'.
Proof.
  intros M C. unfold ensureProgramRef. destruct (find_pin s p o) as [old|] eqn:E.
  - destruct ts as [|x ts].
    + eexists. split; [reflexivity|]. split; [now apply mid_log|]. constructor; reflexivity.
    + eexists. split; [reflexivity|]. split; [|constructor; reflexivity]. apply mid_log. destruct M as [W B]. split.
      * destruct W as [W Ft]. split; auto. destruct W as [A B1 D D' F G K H]. constructor; cbn [with_pins progs pins insts ninsts closed]; auto.
        -- intros p' o' ts' I. apply in_map_iff in I as ([[p2 o2] ts2] & I1 & I2).
           destruct (pin_is p o (p2, o2, ts2)) eqn:P; inversion I1; subst; [exact C|eapply D; eauto].
        -- now rewrite map_pins_keys.
        -- intros H1. destruct (H H1) as (X & Y & Z0). now rewrite Y.
      * unfold maps. cbn [with_pins progs pins insts objs]. rewrite map_pins_objs. rewrite (rest_threads s) by reflexivity. exact B.
  - destruct (mid_ref s own t o M) as (l & R & M').
    { apply in_or_app. left. now apply canonical_maps. }
    rewrite R. cbn [bind]. eexists. split; [reflexivity|].
    assert (Hc: closed s = false).
    { destruct M as [[W _] _]. destruct (closed s) eqn:Hc; auto. destruct (wf_closed s W Hc) as (P & _). destruct C as [m K]. rewrite P in K. contradiction. }
    split; [|constructor; try reflexivity; cbn; eapply ref_ids; eauto].
    apply mid_log. destruct M' as [W B]. split.
    * destruct W as [W Ft]. split; auto. destruct W as [A B1 D D' F G K H]. constructor; cbn [with_pins with_objs progs pins insts ninsts closed] in *; auto.
      -- intros p' o' ts' [I|I]; [inversion I; subst; exact C|eapply D; eauto].
      -- cbn [map fst]. constructor; auto. intros I. apply in_map_iff in I as ([[p2 o2] ts2] & I1 & I2). cbn in I1. inversion I1; subst.
         unfold find_pin in E. destruct (find (pin_is p o) (pins s)) eqn:E'; [discriminate|]. apply (find_none _ _ E') in I2.
         unfold pin_is in I2. cbn in I2. rewrite Z.eqb_refl, Nat.eqb_refl in I2. discriminate.
      -- congruence.
    * rewrite (rest_threads s) by reflexivity. rewrite (rest_threads s) in B by reflexivity. cbn [with_pins with_objs objs] in *.
      eapply bal_eq; [|exact B]. intros x. unfold maps. cbn [with_pins with_objs progs pins insts map fst snd].
      cnts.
Qed.

Lemma mid_merge s own t o : mid s (o :: own) t -> closed s = false ->
  exists s' c, merge s o = Ok (s', c) /\ mid s' own t /\ canonical s' c /\ pid_of s' c = pid_of s o /\
    threads s' = threads s /\ pins s' = pins s /\ insts s' = insts s /\ ninsts s' = ninsts s /\ closed s' = false /\ hist s' = hist s /\
    same_ids (objs s) (objs s').
Proof.
  intros M Hc. pose proof M as [[W _] B]. unfold merge.
  assert (L: (o < length (objs s))%nat). { apply B. apply in_or_app. right. now left. }
  destruct (nth_error (objs s) o) as [b|] eqn:E; [|apply nth_error_None in E; lia].
  assert (P: pid_of s o = Some (pid b)) by (unfold pid_of; now rewrite E).
  destruct (find_prog s (pid b)) as [e|] eqn:F.
  - pose proof (find_prog_in _ _ _ F) as I.
    destruct (mid_unref s (o :: own) own t o M) as (l & R & M'); [reflexivity|].
    assert (Q: forall c, same_ids (objs s) l -> pid_of (with_objs s l) c = pid_of s c).
    { intros c S0. unfold pid_of. cbn. symmetry. now apply same_ids_nth. }
    pose proof (unref_ids _ _ _ R) as S0.
    destruct (Nat.eqb_spec e o) as [->|N].
    + destruct (Z.ltb_spec (refs b) 2) as [L2|].
      { exfalso. destruct B as [B1 _]. destruct (B1 o b E) as [X _]. rewrite !cnt_app in X. cbn [app] in X. rewrite cnt_cons in X.
        destruct (Nat.eq_dec o o); [|congruence]. assert (Y: In o (maps s)) by (apply canonical_maps; eexists; eauto). apply cnt_in in Y. lia. }
      rewrite R. cbn [bind]. exists (with_objs s l), o. split; [reflexivity|]. split; auto. split; [exists (pid b); exact I|].
      split; [now apply Q|]. cbn. auto 10.
    + rewrite R. cbn [bind]. exists (with_objs s l), e. split; auto. split; auto. split; [exists (pid b); exact I|].
      split; [rewrite Q, P by auto; now apply (wf_progs s W)|]. cbn. auto 10.
  - eexists _, o. split; [reflexivity|].
    assert (K: ~ In (pid b) (map fst (progs s))).
    { intros I. apply in_map_iff in I as ([m o'] & Em & I). unfold find_prog in F. cbn in Em.
      destruct (find (fun x => fst x =? pid b) (progs s)) eqn:F'; [discriminate|]. apply (find_none _ _ F') in I. cbn in I. lia. }
    split; [|split; [exists (pid b); now left|cbn; auto 10]].
    split.
    + split; [|apply M]. destruct W as [A B1 D D' F' G K' H]. constructor; cbn [progs pins insts ninsts closed] in *; auto.
      * cbn [map fst]. now constructor.
      * intros m o' [I|I]; [inversion I; subst; exact P|now apply B1].
      * intros p o' ts I. destruct (D p o' ts I) as [m J]. exists m. now right.
      * intros p i n o' I. destruct (F' p i n o' I) as [[m J] J2]. split; auto. exists m. now right.
      * congruence.
    + cbn [objs]. eapply bal_eq; [|exact B]. intros x. unfold maps. cbn [progs pins insts map snd].
      rst s t. cnts.
Qed.

Lemma keeps_canonical s s' c : keeps s s' -> canonical s c -> canonical s' c.
Proof. intros K [m H]. exists m. now rewrite (k_progs _ _ K). Qed.

Definition okinv (r : res st) : Prop := match r with Ok s => inv s | Err => True | Panic => False end.
Lemma mid_goto' s own t g : mid s own t -> treg g -> (forall x, cnt own x = cnt (held g) x) -> okinv (goto s t g).
Proof. intros M T E. pose proof (mid_goto s own t g M T E). destruct (goto s t g); auto. contradiction. Qed.

Lemma register_inv s t o a l c : mid s (o :: l) t -> (launch a <> None -> l = []) -> okinv (register s t o a l c).
Proof.
  intros M T. unfold register.
  assert (Q: okinv (goto s t (SUnref (o :: l)))) by (eapply mid_goto'; [exact M|exact I|reflexivity]).
  assert (X: okinv (if pin a && match pri a with None => true | Some _ => false end then goto s t (SUnref (o :: l))
      else if closed s then goto s t (SUnref (o :: l))
      else if match launch a, pri a with Some i, Some p => match find_inst s p i with Some _ => true | None => false end | _, _ => false end then goto s t (SUnref (o :: l))
      else
        do ' (s1, c0) <- merge s o;
        do s2 <- match pin a, pri a with true, Some p => ensureProgramRef s1 p c0 (tags a) | _, _ => Ok s1 end;
        match launch a with
        | None => goto s2 t (SUnref l)
        | Some i =>
            let n := ninsts s2 in
            let m := match nth_error (objs s2) c0 with Some b => pid b | None => 0 end in
            do s3 <- match pri a with
                     | Some p => do l1 <- ref c0 (objs s2);
                                 Ok (log (St l1 (closed s2) (progs s2) (pins s2) ((p, i, n, c0) :: insts s2) (anon s2) (S n) (threads s2) (hist s2)) (HLaunch p i m n))
                     | None => Ok (St (objs s2) (closed s2) (progs s2) (pins s2) (insts s2) (n :: anon s2) (S n) (threads s2) (hist s2))
                     end;
            do l2 <- ref c0 (objs s3);
            goto (with_objs s3 l2) t (SStart n c0)
        end)).
  { destruct (pin a && match pri a with None => true | Some _ => false end); auto.
    destruct (closed s) eqn:Hc; auto.
    destruct (match launch a, pri a with Some i, Some p => match find_inst s p i with Some _ => true | None => false end | _, _ => false end) eqn:Dup; auto.
    destruct (mid_merge s l t o M Hc) as (s1 & c0 & -> & M1 & C1 & _ & E1 & E2 & E3 & E4 & E5 & E6 & E7). cbn [bind].
    assert (Y: exists s2, match pin a, pri a with true, Some p => ensureProgramRef s1 p c0 (tags a) | _, _ => Ok s1 end = Ok s2 /\ mid s2 l t /\ keeps s1 s2).
    { assert (Z0: exists s2, Ok s1 = Ok s2 /\ mid s2 l t /\ keeps s1 s2) by (exists s1; split; [reflexivity|split; [exact M1|constructor; reflexivity]]).
      destruct (pin a), (pri a); auto. now apply mid_ensure. }
    destruct Y as (s2 & -> & M2 & K2). cbn [bind]. clear Q.
    pose proof (keeps_canonical _ _ _ K2 C1) as C2.
    destruct (launch a) as [i|]; [|eapply mid_goto'; [exact M2|exact I|reflexivity]].
    destruct (pri a) as [p|]; cbn zeta.
    - destruct (mid_ref s2 l t c0 M2) as (l1 & R1 & M3).
      { apply in_or_app. left. now apply canonical_maps. }
      rewrite R1. cbn [bind].
      match goal with |- context [log ?x ?e] => set (s3 := log x e) end.
      assert (M4: mid s3 l t).
      { unfold s3. apply mid_log. destruct M3 as [W B]. split.
        - destruct W as [W Ft]. split; auto. destruct W as [A B1 D D' F' G K' H]. constructor; cbn [with_objs progs pins insts ninsts closed] in *; auto.
          + intros p' i' n o' [I|I].
            * inversion I; subst. split; [exact C2|lia].
            * destruct (F' p' i' n o' I) as [J1 J2]. split; auto.
          + cbn [map fst]. constructor; auto. intros I. apply in_map_iff in I as ([[[p2 i2] n2] o2] & I1 & I2). cbn in I1. inversion I1; subst.
            rewrite (k_insts _ _ K2), E3 in I2. unfold find_inst in Dup.
            destruct (find (inst_is p i) (insts s)) eqn:E'; [discriminate|]. apply (find_none _ _ E') in I2.
            unfold inst_is in I2. cbn in I2. rewrite !Z.eqb_refl in I2. discriminate.
          + cbn [map fst snd]. constructor; auto. intros I. apply in_map_iff in I as ([[[p2 i2] n2] o2] & I1 & I2). cbn in I1.
            apply F' in I2 as [_ I2]. lia.
          + intros H1. rewrite (k_closed _ _ K2) in H1. congruence.
        - cbn [objs with_objs] in *. eapply bal_eq; [|exact B]. intros x. unfold maps. cbn [with_objs progs pins insts map snd]. rst s2 t.
          cnts. }
      destruct (mid_ref s3 l t c0 M4) as (l2 & R2 & M5).
      { apply in_or_app. left. apply canonical_maps. destruct C2 as [m C2]. exists m. exact C2. }
      rewrite R2. cbn [bind]. rewrite T in M5 by discriminate.
      eapply mid_goto'; [exact M5|exact I|reflexivity].
    - cbn [bind]. match goal with |- context [ref c0 (objs ?x)] => set (s3 := x) end.
      assert (M4: mid s3 l t).
      { unfold s3. destruct M2 as [[W Ft] B]. split; [split; auto|exact B].
        destruct W as [A B1 D D' F' G K' H]. constructor; cbn [with_objs progs pins insts ninsts closed] in *; auto.
        intros p' i' n o' J. destruct (F' p' i' n o' J) as [J1 J2]. split; auto. }
      destruct (mid_ref s3 l t c0 M4) as (l2 & R2 & M5).
      { apply in_or_app. left. apply canonical_maps. destruct C2 as [m C2]. exists m. exact C2. }
      rewrite R2. cbn [bind]. rewrite T in M5 by discriminate.
      eapply mid_goto'; [exact M5|exact I|reflexivity]. }
  destruct c; auto.
Qed.

Lemma delete_mid s own t n : mid s own t -> exists s', delete_inst s n = Ok s' /\ mid s' own t.
Proof.
  intros M. unfold delete_inst. destruct (find (inst_no n) (insts s)) as [[[[p i] k] o]|] eqn:E.
  - apply find_some in E as [E F]. unfold inst_no in F. cbn [fst snd] in *. apply Nat.eqb_eq in F. subst k.
    pose proof M as [[W Ft] B].
    assert (C: forall x, cnt (map snd (insts s)) x = cnt (o :: map snd (filter (fun y => negb (inst_no n y)) (insts s))) x).
    { pose proof (wf_instnos s W) as N. clear -E N. induction (insts s) as [|y l IH]; [contradiction|].
      intros x. cbn [map filter] in *. inversion N as [|? ? N1 N2]; subst. destruct E as [->|E].
      - unfold inst_no at 1. cbn [fst snd]. rewrite Nat.eqb_refl. cbn [negb].
        replace (filter (fun y => negb (inst_no n y)) l) with l; [reflexivity|].
        clear -N1. cbn [fst snd] in N1. induction l as [|z l IH]; auto. cbn [map filter] in *.
        destruct (inst_no n z) eqn:Q; cbn [negb].
        + exfalso. apply N1. left. unfold inst_no in Q. now apply Nat.eqb_eq in Q.
        + f_equal. apply IH. intros H. apply N1. now right.
      - destruct (inst_no n y) eqn:Q; cbn [negb].
        + exfalso. apply N1. unfold inst_no in Q. apply Nat.eqb_eq in Q. rewrite Q. apply in_map_iff. exists (p, i, n, o). auto.
        + cbn [map]. specialize (IH E N2 x). rewrite !cnt_cons in *. lia. }
    assert (B': balanced (objs s) (o :: maps (St (objs s) (closed s) (progs s) (pins s) (filter (fun y => negb (inst_no n y)) (insts s)) (anon s) (ninsts s) (threads s) (hist s)) ++ own ++ rest s t)).
    { eapply bal_eq; [|exact B]. intros x. specialize (C x). unfold maps. cbn [progs pins insts]. rewrite cnt_cons in *. rewrite !cnt_app. lia. }
    destruct (unref_bal _ _ _ o B' (fun x => eq_refl)) as (l & R & B2). rewrite R. cbn [bind].
    eexists. split; [reflexivity|]. apply mid_log. split; [split; auto|exact B2].
    apply unref_ids in R.
    destruct W as [A B1 D D' F' G K' H]. constructor; cbn [progs pins insts ninsts closed] in *; auto.
    + intros m o' J. unfold pid_of. cbn [objs]. rewrite <- (same_ids_nth _ _ _ R). now apply B1.
    + intros p' i' n' o' J. apply filter_In in J as [J _]. eapply F'; eauto.
    + clear -G. induction (insts s) as [|y l IH]; cbn [map filter] in *; auto. inversion G as [|? ? N1 N2]; subst.
      destruct (negb (inst_no n y)); auto. cbn [map]. constructor; auto. intros J. apply N1. apply in_map_iff in J as (z & J1 & J2).
      apply filter_In in J2 as [J2 _]. apply in_map_iff. eauto.
    + clear -K'. induction (insts s) as [|y l IH]; cbn [map filter] in *; auto. inversion K' as [|? ? N1 N2]; subst.
      destruct (negb (inst_no n y)); auto. cbn [map]. constructor; auto. intros J. apply N1. apply in_map_iff in J as (z & J1 & J2).
      apply filter_In in J2 as [J2 _]. apply in_map_iff. eauto.
    + intros H1. destruct (H H1) as (X & Y & Z0). rewrite Z0. auto.
  - eexists. split; [reflexivity|]. destruct M as [[W Ft] B]. split; [split; auto|exact B]. revert W. apply wf_ext; auto.
Qed.

Lemma run_inv s t c : inv s -> ~ start_fails s (ERun t c) -> okinv (run s t c).
Proof.
  intros I NS. unfold run. destruct (nth_error (threads s) t) as [g|] eqn:G; [|exact Logic.I].
  pose proof (inv_mid s t g I G) as M. pose proof (i_wf s I) as W.
  assert (Canon: forall m o own, find_prog s m = Some o -> In o (maps s ++ own)).
  { intros m o own H. apply in_or_app. left. apply canonical_maps. eapply find_prog_canonical; eauto. }
  destruct g as [h a|h a|p m i|p m|p|p m|p m ts|p m|p i o|h o a|o a l|n o|n o|n l|n|n o|p i m ts o|o|[|o l]]; cbn [held] in M.
  - destruct (find_prog s h) as [o|] eqn:F; [|eapply mid_goto'; [exact M|exact Logic.I|reflexivity]].
    destruct (mid_ref s [] t o M) as (l & R & M1); [eapply Canon; eauto|].
    assert (Op: exists b, nth_error (objs s) o = Some b /\ opened b = true).
    { pose proof (Canon h o [] F) as C. destruct M as [_ [B1 B2]]. specialize (B2 o). specialize (B1 o).
      assert (In o (maps s ++ [] ++ rest s t)) as J by (rewrite app_assoc; apply in_or_app; now left).
      specialize (B2 J). apply nth_error_Some in B2. destruct (nth_error (objs s) o) as [b|]; [|congruence]. exists b. split; auto.
      destruct (B1 b eq_refl) as [X Y]. rewrite Y. apply cnt_in in J. lia. }
    destruct Op as (b & -> & ->). cbn [negb].
    destruct c; rewrite ?R; cbn [bind]; eapply mid_goto'; try exact M; try exact M1; try exact Logic.I; reflexivity.
  - assert (X: okinv (if match h with Some h => content a =? h | None => true end
                 then let s1 := with_objs s (objs s ++ [Obj (content a) 1 true]) in
                      goto (match pri a with Some p => log s1 (HSupplied p (content a)) | None => s1 end) t (SReg (length (objs s)) a [])
                 else goto s t done)).
    { destruct (match h with Some h => content a =? h | None => true end); [|eapply mid_goto'; [exact M|exact Logic.I|reflexivity]].
      cbn zeta. pose proof (mid_new s [] t (content a) M) as M1.
      destruct (pri a) as [p|].
      - apply mid_goto' with [length (objs s)]; [now apply mid_log| |reflexivity]. cbn. auto.
      - apply mid_goto' with [length (objs s)]; [assumption| |reflexivity]. cbn. auto. }
    destruct c; auto. eapply mid_goto'; [exact M|exact Logic.I|reflexivity].
  - destruct (find_prog s m) as [o|] eqn:F; [|eapply mid_goto'; [apply mid_log, M|exact Logic.I|reflexivity]].
    destruct (find_pin s p o) as [ts0|]; [|eapply mid_goto'; [apply mid_log, M|exact Logic.I|reflexivity]].
    destruct (mid_ref s [] t o M) as (l & R & M1); [eapply Canon; eauto|]. rewrite R. cbn [bind].
    eapply mid_goto'; [apply mid_log, M1| |reflexivity]. cbn. auto.
  - eapply mid_goto'; [apply mid_log, M|exact Logic.I|reflexivity].
  - eapply mid_goto'; [apply mid_log, M|exact Logic.I|reflexivity].
  - destruct (find_prog s m) as [o|] eqn:F; [|eapply mid_goto'; [apply mid_log, M|exact Logic.I|reflexivity]].
    destruct (find_pin s p o) as [ts0|]; [|eapply mid_goto'; [apply mid_log, M|exact Logic.I|reflexivity]].
    destruct (mid_ref s [] t o M) as (l & R & M1); [eapply Canon; eauto|]. rewrite R. cbn [bind].
    eapply mid_goto'; [apply mid_log, M1|exact Logic.I|reflexivity].
  - destruct (find_prog s m) as [o|] eqn:F; [|eapply mid_goto'; [exact M|exact Logic.I|reflexivity]].
    destruct (match find_pin s p o with Some _ => true | None => existsb (fun x => (fst (fst (fst x)) =? p) && Nat.eqb (snd x) o) (insts s) end);
      [|eapply mid_goto'; [exact M|exact Logic.I|reflexivity]].
    destruct (mid_ensure s [] t p o ts M) as (s1 & -> & M1 & K); [eapply find_prog_canonical; eauto|]. cbn [bind].
    eapply mid_goto'; [exact M1|exact Logic.I|reflexivity].
  - destruct (find_prog s m) as [o|] eqn:F; [|eapply mid_goto'; [apply mid_log, M|exact Logic.I|reflexivity]].
    destruct (find_pin s p o) as [ts|] eqn:P; [|eapply mid_goto'; [apply mid_log, M|exact Logic.I|reflexivity]].
    apply find_pin_in in P. pose proof M as [[_ Ft] B].
    assert (C: forall x, cnt (map (fun x => snd (fst x)) (pins s)) x = cnt (o :: map (fun x => snd (fst x)) (filter (fun y => negb (pin_is p o y)) (pins s))) x).
    { pose proof (wf_pinkeys s W) as N. clear -P N. induction (pins s) as [|y l IH]; [contradiction|].
      intros x. cbn [map filter] in *. inversion N as [|? ? N1 N2]; subst. destruct P as [->|P].
      - unfold pin_is at 1. cbn [fst snd]. rewrite Z.eqb_refl, Nat.eqb_refl. cbn [negb andb].
        replace (filter (fun y => negb (pin_is p o y)) l) with l; [reflexivity|].
        clear -N1. cbn [fst snd] in N1. induction l as [|z l IH]; auto. cbn [map filter] in *.
        destruct (pin_is p o z) eqn:Q; cbn [negb].
        + exfalso. apply N1. left. unfold pin_is in Q. apply andb_prop in Q as [Q1 Q2]. apply Z.eqb_eq in Q1. apply Nat.eqb_eq in Q2. destruct z as [[? ?] ?]. cbn in *. congruence.
        + f_equal. apply IH. intros H. apply N1. now right.
      - destruct (pin_is p o y) eqn:Q; cbn [negb].
        + exfalso. apply N1. unfold pin_is in Q. apply andb_prop in Q as [Q1 Q2]. apply Z.eqb_eq in Q1. apply Nat.eqb_eq in Q2. destruct y as [[? ?] ?]. cbn in *. subst. apply in_map_iff. exists (p, o, ts). auto.
        + cbn [map]. specialize (IH P N2 x). rewrite !cnt_cons in *. lia. }
    set (s1 := with_pins s (filter (fun x => negb (pin_is p o x)) (pins s))).
    assert (B': balanced (objs s) (o :: maps s1 ++ [] ++ rest s t)).
    { eapply bal_eq; [|exact B]. intros x. specialize (C x). unfold maps, s1. cbn [with_pins progs pins insts]. rewrite cnt_cons in *. rewrite !cnt_app. lia. }
    destruct (unref_bal _ _ _ o B' (fun x => eq_refl)) as (l & R & B2). rewrite R. cbn [bind].
    apply mid_goto' with []; [|exact Logic.I|reflexivity]. apply mid_log. split; [split; auto|exact B2].
    apply unref_ids in R.
    destruct W as [A B1 D D' F' G1 K' H]. constructor; cbn [with_pins with_objs progs pins insts ninsts closed] in *; auto.
    + intros m' o' J. unfold pid_of. cbn [with_pins with_objs objs]. rewrite <- (same_ids_nth _ _ _ R). now apply B1.
    + intros p' o' ts' J. apply filter_In in J as [J _]. eapply D; eauto.
    + clear -D'. induction (pins s) as [|y l IH]; cbn [map filter] in *; auto. inversion D' as [|? ? N1 N2]; subst.
      destruct (negb (pin_is p o y)); auto. cbn [map]. constructor; auto. intros J. apply N1. apply in_map_iff in J as (z & J1 & J2).
      apply filter_In in J2 as [J2 _]. apply in_map_iff. eauto.
    + intros H1. destruct (H H1) as (X & Y & Z0). rewrite Y. auto.
  - destruct (find_inst s p i) as [[n b]|] eqn:F; [|eapply mid_goto'; [apply mid_log, M|exact Logic.I|reflexivity]].
    cbn zeta. pose proof (mid_log s [] t (HInst p i (Some n)) M) as M1.
    destruct (mid_ref _ [] t b M1) as (l & R & M2).
    { apply in_or_app. left. apply canonical_maps. apply find_inst_in in F. destruct (wf_insts s W _ _ _ _ F) as [[m C] _]. exists m. exact C. }
    destruct o; rewrite ?R; cbn [bind]; eapply mid_goto'; try exact M1; try exact M2; try exact Logic.I; reflexivity.
  - destruct c; try (eapply mid_goto'; [exact M|exact Logic.I|reflexivity]);
      (destruct (content a =? h); [|eapply mid_goto'; [exact M|exact Logic.I|reflexivity]];
       destruct (pri a); apply mid_goto' with [o]; [apply mid_log, M|cbn; auto|reflexivity|exact M|cbn; auto|reflexivity]).
  - apply register_inv; auto. pose proof (i_reg s I) as F. rewrite Forall_forall in F. apply nth_error_In in G. exact (F _ G).
  - destruct c; try (eapply mid_goto'; [exact M|exact Logic.I|reflexivity]).
    exfalso. apply NS. exists t, n, o. auto.
  - destruct c; eapply mid_goto'; try exact M; try exact Logic.I; reflexivity.
  - destruct (delete_mid s l t n M) as (s1 & -> & M1). cbn [bind]. eapply mid_goto'; [exact M1|exact Logic.I|reflexivity].
  - destruct c; eapply mid_goto'; try exact M; try exact Logic.I; reflexivity.
  - destruct c; eapply mid_goto'; try exact M; try exact Logic.I; reflexivity.
  - assert (X: okinv (goto (log (with_objs s (objs s ++ [Obj m 1 true])) (HSnap p i m)) t (SReg (length (objs s)) (Args (Some p) m true ts None) [o]))).
    { apply mid_goto' with (length (objs s) :: [o]); [apply mid_log, mid_new, M|cbn; congruence|reflexivity]. }
    destruct c; auto. eapply mid_goto'; [exact M|exact Logic.I|reflexivity].
  - eapply mid_goto'; [exact M|exact Logic.I|reflexivity].
  - exact Logic.I.
  - destruct (mid_unref s (o :: l) l t o M) as (l1 & R & M1); [reflexivity|]. rewrite R. cbn [bind].
    eapply mid_goto'; [exact M1|exact Logic.I|reflexivity].
Qed.

Lemma step_inv s e : inv s -> ~ start_fails s e -> okinv (step s e).
Proof.
  intros I NS. destruct e as [g|t c|]; cbn [step].
  - destruct (request g) eqn:Q; [|exact Logic.I]. cbn [okinv]. destruct I as [B W F]. constructor.
    + rewrite holders_maps in *. cbn [threads objs]. eapply bal_eq; [|exact B]. intros x. rewrite flat_map_app. unfold maps. cbn [progs pins insts].
      replace (flat_map held [g]) with (@nil nat) by (destruct g; try discriminate; reflexivity). now rewrite app_nil_r.
    + revert W. apply wf_ext; auto.
    + cbn [threads]. apply Forall_app. split; auto. constructor; auto. destruct g; try discriminate; exact Logic.I.
  - now apply run_inv.
  - destruct I as [B W F]. unfold shutdown. rewrite holders_maps in B. unfold maps in B. rewrite <- !app_assoc in B.
    destruct (unref_all_bal _ _ _ _ B (fun x => eq_refl)) as (l1 & R1 & B1). rewrite R1. cbn [bind].
    destruct (unref_all_bal _ _ _ _ B1 (fun x => eq_refl)) as (l2 & R2 & B2). rewrite R2. cbn [bind].
    destruct (unref_all_bal _ _ _ _ B2 (fun x => eq_refl)) as (l3 & R3 & B3). rewrite R3. cbn [bind okinv].
    constructor.
    + exact B3.
    + constructor; cbn; auto using NoDup_nil; intros; contradiction.
    + exact F.
Qed.
