From Verif Require Import BaseLemmas Varint VarintProofs StreamState StreamStateProofs Origin.

Lemma set_nth_length {A} (l : list A) i x : length (set_nth l i x) = length l.
Proof. revert i; induction l as [|h t IH]; intros [|i]; cbn; auto. Qed.
Lemma set_nth_same {A} (l : list A) i x y : nth_error l i = Some y -> nth_error (set_nth l i x) i = Some x.
Proof. revert i; induction l as [|h t IH]; intros [|i] H; cbn in *; try discriminate; auto. Qed.
Lemma set_nth_other {A} (l : list A) i j x : i <> j -> nth_error (set_nth l i x) j = nth_error l j.
Proof. revert i j; induction l as [|h t IH]; intros [|i] [|j] H; cbn in *; try congruence; auto. Qed.

Definition b2z (b : bool) : Z := if b then 1 else 0.
Fixpoint countf {A} (f : A -> bool) (l : list A) : Z := match l with [] => 0 | x :: t => b2z (f x) + countf f t end.
Lemma countf_nonneg {A} (f : A -> bool) l : 0 <= countf f l.
Proof. induction l as [|x t IH]; cbn; [lia|]. unfold b2z. destruct (f x); lia. Qed.
Lemma countf_app {A} (f : A -> bool) a b : countf f (a ++ b) = countf f a + countf f b.
Proof. induction a as [|x t IH]; cbn; [lia|]. rewrite IH. lia. Qed.
Lemma countf_set {A} (f : A -> bool) l k x y : nth_error l k = Some y -> countf f (set_nth l k x) = countf f l - b2z (f y) + b2z (f x).
Proof.
  revert k; induction l as [|h t IH]; intros [|k] H; cbn in H; try discriminate.
  - injection H as ->. cbn. lia.
  - cbn. rewrite (IH k H). lia.
Qed.
Lemma countf_pos {A} (f : A -> bool) l k y : nth_error l k = Some y -> f y = true -> 1 <= countf f l.
Proof.
  revert k; induction l as [|h t IH]; intros [|k] H F; cbn in H; try discriminate.
  - injection H as ->. cbn [countf]. rewrite F. pose proof (countf_nonneg f t). unfold b2z. lia.
  - cbn. specialize (IH k H F). unfold b2z. destruct (f h); lia.
Qed.
Lemma countf_unique {A} (f : A -> bool) l k k' y y' : countf f l <= 1 -> nth_error l k = Some y -> f y = true ->
  nth_error l k' = Some y' -> f y' = true -> k = k'.
Proof.
  revert k k'; induction l as [|h t IH]; intros [|k] [|k'] C H F H' F'; cbn in *; try discriminate; try reflexivity.
  - injection H as ->. rewrite F in C. pose proof (countf_pos f t k' y' H' F'). unfold b2z in C. lia.
  - injection H' as ->. rewrite F' in C. pose proof (countf_pos f t k y H F). unfold b2z in C. lia.
  - f_equal. apply (IH k k'); auto. unfold b2z in C. destruct (f h); lia.
Qed.

(* ---- the streams map ---- *)

Definition keys (m : list (Z * owner)) := map fst m.

Lemma sget_Some_In m id o : sget m id = Some o -> In (id, o) m.
Proof. induction m as [|[i p] t IH]; cbn; [discriminate|]. destruct (Z.eqb_spec i id) as [->|]; [injection 1 as ->; now left|right; auto]. Qed.
Lemma sget_None m id : sget m id = None <-> ~ In id (keys m).
Proof.
  induction m as [|[i p] t IH]; cbn; [tauto|]. destruct (Z.eqb_spec i id) as [->|]; [split; [discriminate|tauto]|].
  rewrite IH. unfold keys. tauto.
Qed.
Lemma sget_sdel_same m id : sget (sdel m id) id = None.
Proof.
  apply sget_None. unfold keys, sdel. rewrite in_map_iff. intros ([i o] & E & H). apply filter_In in H. cbn in *. destruct H as [_ H]. subst. rewrite Z.eqb_refl in H. discriminate.
Qed.
Lemma sget_sdel_other m id j : j <> id -> sget (sdel m id) j = sget m j.
Proof.
  intros N. induction m as [|[i o] t IH]; [reflexivity|].
  change (sdel ((i, o) :: t) id) with (if negb (i =? id) then (i, o) :: sdel t id else sdel t id).
  destruct (Z.eqb_spec i id) as [->|Q]; cbn [negb sget].
  - rewrite IH. destruct (Z.eqb_spec id j); [congruence|reflexivity].
  - rewrite IH. reflexivity.
Qed.
Lemma keys_sdel m id : NoDup (keys m) -> NoDup (keys (sdel m id)).
Proof.
  unfold keys, sdel. induction m as [|[i o] t IH]; cbn; [auto|]. intros H. inversion H; subst. destruct (negb (i =? id)); cbn; [|auto].
  constructor; [|auto]. intros Q. apply in_map_iff in Q. destruct Q as (x & E & I). apply filter_In in I. apply H2. apply in_map_iff. exists x. tauto.
Qed.
Lemma In_sdel m id j : In j (keys (sdel m id)) -> In j (keys m) /\ j <> id.
Proof.
  unfold keys, sdel. rewrite in_map_iff. intros (x & E & I). apply filter_In in I. destruct I as [I F]. split; [apply in_map_iff; exists x; tauto|].
  intros ->. subst. rewrite Z.eqb_refl in F. discriminate.
Qed.

Lemma lowest_spec m : forall fuel id, let r := lowest fuel m id in
  id <= r <= id + Z.of_nat fuel /\ (forall j, id <= j < r -> In j (keys m)) /\ (r < id + Z.of_nat fuel -> ~ In r (keys m)).
Proof.
  induction fuel as [|k IH]; intros id; cbn [lowest]; cbv zeta.
  - split; [lia|]. split; [intros; lia|lia].
  - destruct (sget m id) as [o|] eqn:G.
    + specialize (IH (id + 1)). cbv zeta in IH. destruct IH as (A & B & C). split; [lia|]. split.
      * intros j Hj. destruct (Z.eq_dec j id) as [->|]; [|apply B; lia].
        apply sget_Some_In in G. apply in_map_iff. exists (id, o). auto.
      * intros Q. apply C. lia.
    + split; [lia|]. split; [intros; lia|]. intros _. now apply sget_None.
Qed.

Fixpoint zrange (n : nat) (a : Z) : list Z := match n with O => [] | S k => a :: zrange k (a + 1) end.
Lemma zrange_In n : forall a j, In j (zrange n a) <-> a <= j < a + Z.of_nat n.
Proof.
  induction n as [|n IH]; intros a j; cbn [zrange In]; [lia|]. rewrite IH. lia.
Qed.
Lemma zrange_NoDup n : forall a, NoDup (zrange n a).
Proof. induction n as [|n IH]; intros a; cbn; constructor; [|apply IH]. rewrite zrange_In. lia. Qed.
Lemma zrange_length n : forall a, length (zrange n a) = n.
Proof. induction n as [|n IH]; intros a; cbn; [reflexivity|]. now rewrite IH. Qed.

(* free_id is the least nonnegative number that is not in use *)
Lemma free_id_spec m : let r := free_id m in 0 <= r /\ ~ In r (keys m) /\ forall j, 0 <= j < r -> In j (keys m).
Proof.
  cbv zeta. unfold free_id. pose proof (lowest_spec m (length m) 0) as H. cbv zeta in H. destruct H as (A & B & C).
  split; [lia|]. split; [|assumption].
  destruct (Z.lt_ge_cases (lowest (length m) m 0) (Z.of_nat (length m))) as [L|L]; [apply C; lia|].
  assert (E : lowest (length m) m 0 = Z.of_nat (length m)) by lia. rewrite E in *. intros Q.
  assert (I : incl (zrange (S (length m)) 0) (keys m)).
  { intros j Hj. apply zrange_In in Hj. destruct (Z.eq_dec j (Z.of_nat (length m))) as [->|]; [assumption|]. apply B. lia. }
  pose proof (NoDup_incl_length (zrange_NoDup (S (length m)) 0) I) as P. rewrite zrange_length in P. unfold keys in P. rewrite map_length in P. lia.
Qed.

(* ---- the invariant ---- *)

Definition busy (p : phase) : bool := match p with PReply _ | PSent _ | PCancel _ => true | _ => false end.
Definition psent (p : phase) : bool := match p with PSent _ => true | _ => false end.
Definition phase_id (p : phase) : option Z := match p with PReply id | PSent id | PCancel id | PStream id => Some id | _ => None end.

Record OInv (s : org) : Prop := {
  oi_nodup : NoDup (keys (streams s));
  oi_own : forall k p id, nth_error (conns s) k = Some p -> phase_id p = Some id -> sget (streams s) id = Some (OConn k);
  oi_busy : countf busy (conns s) = b2z (replying s);
  oi_acc : 0 <= accepting s < 2 ^ 31 /\ (replying s = true -> 0 < accepting s);
  oi_wait : waited s = true -> shutting s = true /\ replying s = false
}.

Lemma phase_set conns k p k' q id (m m' : list (Z * owner)) :
  (forall k p id, nth_error conns k = Some p -> phase_id p = Some id -> sget m id = Some (OConn k)) ->
  (forall j, j <> k -> forall id, sget m id = Some (OConn j) -> sget m' id = Some (OConn j)) ->
  (k < length conns)%nat ->
  (forall id, phase_id p = Some id -> sget m' id = Some (OConn k)) ->
  nth_error (set_nth conns k p) k' = Some q -> phase_id q = Some id -> sget m' id = Some (OConn k').
Proof.
  intros H1 H2 L H3 N P. destruct (Nat.eq_dec k k') as [<-|NE].
  - destruct (nth_error conns k) as [y|] eqn:Y; [|apply nth_error_None in Y; lia].
    rewrite (set_nth_same conns k p y Y) in N. injection N as <-. auto.
  - rewrite set_nth_other in N by assumption. apply H2; [congruence|]. eapply H1; eassumption.
Qed.

Lemma OInv_step s e s' : OInv s -> ostep s e = Some s' -> OInv s'.
Proof.
  intros [I1 I2 I3 I4 I5] E. destruct e as [| |k|k|k|k|k live|id lv| |]; cbn [ostep] in E.
  - destruct (s32 (accepting s + 1) >? 0) eqn:Q; [|discriminate]. injection E as <-.
    constructor; cbn [streams conns replying accepting waited shutting]; try assumption. split; [|lia].
    destruct I4 as [I4 _]. destruct (Z.eq_dec (accepting s) (2 ^ 31 - 1)) as [Z1|]; [|lia].
    rewrite Z1 in Q. vm_compute in Q. discriminate.
  - injection E as <-. constructor; cbn [streams conns replying accepting waited shutting]; try assumption.
    + intros k p id N P. destruct (Nat.lt_ge_cases k (length (conns s))) as [L|L].
      * rewrite nth_error_app1 in N by assumption. eapply I2; eassumption.
      * rewrite nth_error_app2 in N by assumption. destruct (k - length (conns s))%nat as [|n]; cbn in N; [injection N as <-; discriminate|destruct n; discriminate].
    + rewrite countf_app. cbn. lia.
  - destruct (token s); [|discriminate]. destruct (nth_error (conns s) k) as [p|] eqn:N; [|discriminate].
    assert (L : (k < length (conns s))%nat) by (apply nth_error_Some; congruence).
    destruct p as [|id| | | |]; try discriminate.
    + destruct ((accepting s >? 0) && negb (replying s) && negb (shutting s)) eqn:Q.
      * injection E as <-. destruct (free_id_spec (streams s)) as (F1 & F2 & F3).
        constructor; cbn [streams conns replying accepting waited shutting].
        -- cbn. constructor; assumption.
        -- intros k' q id. eapply phase_set; [exact I2| |assumption|].
           ++ intros j NJ id' G. cbn [sget]. destruct (Z.eqb_spec (free_id (streams s)) id') as [<-|]; [|assumption].
              exfalso. apply F2. apply sget_Some_In in G. apply in_map_iff. eexists. split; [|exact G]. reflexivity.
           ++ intros id' P. injection P as <-. cbn [sget]. now rewrite Z.eqb_refl.
        -- rewrite (countf_set _ _ _ _ _ N). cbn. destruct (replying s); [lia|cbn in I3; lia].
        -- lia.
        -- intros W. destruct (I5 W). destruct (shutting s), (replying s), (accepting s >? 0); discriminate.
      * destruct (shutting s) eqn:SH; injection E as <-; constructor; cbn [streams conns replying accepting waited shutting]; try assumption.
        -- intros k' q id. eapply phase_set; [exact I2|auto|assumption|discriminate].
        -- rewrite (countf_set _ _ _ _ _ N). cbn. lia.
    + destruct (shutting s) eqn:SH; injection E as <-; constructor; cbn [streams conns replying accepting waited shutting]; try assumption.
      * intros k' q id'. eapply phase_set; [exact I2|auto|assumption|]. intros id0 P. injection P as <-. eapply I2; [exact N|reflexivity].
      * rewrite (countf_set _ _ _ _ _ N). cbn. lia.
  - destruct (nth_error (conns s) k) as [p|] eqn:N; [|discriminate].
    assert (L : (k < length (conns s))%nat) by (apply nth_error_Some; congruence).
    destruct p as [|id| | | |]; try discriminate; injection E as <-; constructor; cbn [streams conns replying accepting waited shutting]; try assumption.
    + intros k' q id'. eapply phase_set; [exact I2|auto|assumption|discriminate].
    + rewrite (countf_set _ _ _ _ _ N). cbn. lia.
    + intros k' q id'. eapply phase_set; [exact I2|auto|assumption|]. intros id0 P. injection P as <-. eapply I2; [exact N|reflexivity].
    + rewrite (countf_set _ _ _ _ _ N). cbn. lia.
  - destruct (nth_error (conns s) k) as [p|] eqn:N; [|discriminate].
    assert (L : (k < length (conns s))%nat) by (apply nth_error_Some; congruence).
    destruct p as [|id| | | |]; try discriminate; injection E as <-; constructor; cbn [streams conns replying accepting waited shutting]; try assumption.
    + intros k' q id'. eapply phase_set; [exact I2|auto|assumption|]. intros id0 P. injection P as <-. eapply I2; [exact N|reflexivity].
    + rewrite (countf_set _ _ _ _ _ N). cbn. lia.
  - destruct (nth_error (conns s) k) as [p|] eqn:N; [|discriminate].
    assert (L : (k < length (conns s))%nat) by (apply nth_error_Some; congruence).
    assert (BP : busy p = true -> replying s = true).
    { intros B. pose proof (countf_pos busy _ _ _ N B). destruct (replying s); [reflexivity|cbn in I3; lia]. }
    destruct p as [| |id|id| |]; try discriminate; injection E as <-; specialize (BP eq_refl); constructor; cbn [streams conns replying accepting waited shutting]; try assumption.
    + intros k' q id'. eapply phase_set; [exact I2|auto|assumption|]. intros id0 P. injection P as <-. eapply I2; [exact N|reflexivity].
    + rewrite (countf_set _ _ _ _ _ N), I3, BP. reflexivity.
    + destruct I4 as [A B]. specialize (B BP). split; [lia|discriminate].
    + intros W. destruct (I5 W). auto.
    + now apply keys_sdel.
    + intros k' q id'. eapply phase_set; [exact I2| |assumption|discriminate].
      intros j NJ id0 G. rewrite sget_sdel_other; [assumption|]. intros ->. rewrite (I2 _ _ _ N eq_refl) in G. congruence.
    + rewrite (countf_set _ _ _ _ _ N), I3, BP. reflexivity.
    + destruct I4 as [A B]. split; [lia|discriminate].
    + intros W. destruct (I5 W). auto.
  - destruct (nth_error (conns s) k) as [p|] eqn:N; [|discriminate].
    assert (L : (k < length (conns s))%nat) by (apply nth_error_Some; congruence).
    destruct p as [| | | |id|]; try discriminate; injection E as <-; constructor; cbn [streams conns replying accepting waited shutting]; try assumption.
    + destruct (negb live && negb (shutting s)); [now apply keys_sdel|assumption].
    + intros k' q id'. eapply phase_set; [exact I2| |assumption|discriminate].
      intros j NJ id0 G. destruct (negb live && negb (shutting s)); [|assumption].
      rewrite sget_sdel_other; [assumption|]. intros ->. rewrite (I2 _ _ _ N eq_refl) in G. congruence.
    + rewrite (countf_set _ _ _ _ _ N). cbn. lia.
  - destruct (sget (streams s) id) as [[k|]|] eqn:G; try discriminate. injection E as <-.
    constructor; cbn [streams conns replying accepting waited shutting]; try assumption.
    + destruct (shutting s); [assumption|now apply keys_sdel].
    + intros k p id' N P. specialize (I2 _ _ _ N P). destruct (shutting s); [assumption|].
      rewrite sget_sdel_other; [assumption|]. congruence.
  - injection E as <-. constructor; cbn [streams conns replying accepting waited shutting]; try assumption. intros W. destruct (I5 W). auto.
  - destruct (shutting s && negb (replying s) && negb (waited s)) eqn:Q; [|discriminate]. injection E as <-.
    constructor; cbn [streams conns replying accepting waited shutting]; try assumption. intros _. destruct (shutting s), (replying s); try discriminate. auto.
Qed.

Lemma OInv_start restored acc : NoDup restored -> 0 <= acc < 2 ^ 31 -> OInv (ostart restored acc).
Proof.
  intros N A. constructor; cbn [ostart streams conns replying accepting waited shutting].
  - unfold keys. rewrite map_map. cbn. now rewrite map_id.
  - intros k p id H. destruct k; discriminate.
  - reflexivity.
  - split; [assumption|discriminate].
  - discriminate.
Qed.

Lemma OInv_run es : forall s s', OInv s -> orun s es = Some s' -> OInv s'.
Proof.
  induction es as [|e t IH]; intros s s' I R; cbn [orun] in R; [now injection R as <-|].
  destruct (ostep s e) as [s1|] eqn:E; [|discriminate]. eapply IH; [|exact R]. eapply OInv_step; eassumption.
Qed.

(* accept calls in a history *)
Fixpoint naccept (es : list oevent) : Z := match es with [] => 0 | EAccept :: t => 1 + naccept t | _ :: t => naccept t end.

Lemma account_step s e s' : ostep s e = Some s' ->
  accepting s' + len (sent s') - countf psent (conns s') = accepting s + len (sent s) - countf psent (conns s) + naccept [e].
Proof.
  intros E. destruct e as [| |k|k|k|k|k live|id lv| |]; cbn [ostep] in E; cbn [naccept].
  - destruct (_ >? 0) in E; [|discriminate]. injection E as <-. cbn. lia.
  - injection E as <-. cbn. rewrite countf_app. cbn. lia.
  - destruct (token s); [|discriminate]. destruct (nth_error (conns s) k) as [p|] eqn:N; [|discriminate].
    destruct p as [|id| | | |]; try discriminate.
    + destruct (_ && _ && _) in E; [|destruct (shutting s)]; injection E as <-; cbn [accepting sent conns]; rewrite ?(countf_set _ _ _ _ _ N); cbn; lia.
    + destruct (shutting s); injection E as <-; cbn [accepting sent conns]; rewrite ?(countf_set _ _ _ _ _ N); cbn; lia.
  - destruct (nth_error (conns s) k) as [p|] eqn:N; [|discriminate].
    destruct p as [|id| | | |]; try discriminate; injection E as <-; cbn [accepting sent conns]; rewrite ?(countf_set _ _ _ _ _ N); cbn; lia.
  - destruct (nth_error (conns s) k) as [p|] eqn:N; [|discriminate].
    destruct p as [|id| | | |]; try discriminate; injection E as <-; cbn [accepting sent conns]; rewrite ?(countf_set _ _ _ _ _ N), len_app; cbn; lia.
  - destruct (nth_error (conns s) k) as [p|] eqn:N; [|discriminate].
    destruct p as [| |id|id| |]; try discriminate; injection E as <-; cbn [accepting sent conns]; rewrite ?(countf_set _ _ _ _ _ N); cbn; lia.
  - destruct (nth_error (conns s) k) as [p|] eqn:N; [|discriminate].
    destruct p as [| | | |id|]; try discriminate; injection E as <-; cbn [accepting sent conns]; rewrite ?(countf_set _ _ _ _ _ N); cbn; lia.
  - destruct (sget (streams s) id) as [[k|]|] eqn:G; try discriminate. injection E as <-. cbn. lia.
  - injection E as <-. cbn. lia.
  - destruct (_ && _ && _) in E; [|discriminate]. injection E as <-. cbn. lia.
Qed.

Lemma naccept_cons e t : naccept (e :: t) = naccept [e] + naccept t.
Proof. destruct e; cbn; lia. Qed.

Lemma account_run es : forall s s', orun s es = Some s' ->
  accepting s' + len (sent s') - countf psent (conns s') = accepting s + len (sent s) - countf psent (conns s) + naccept es.
Proof.
  induction es as [|e t IH]; intros s s' R; cbn [orun] in R; [injection R as <-; cbn; lia|].
  destruct (ostep s e) as [s1|] eqn:E; [|discriminate]. rewrite (IH _ _ R), naccept_cons, (account_step _ _ _ E). lia.
Qed.
