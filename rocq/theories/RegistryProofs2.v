From Verif Require Import BaseLemmas Registry RegistrySpec RegistryProofs.

(* ---- registries ---- *)

Lemma mget_mset {V} (m : list (bytes * V)) k v k' : mget (mset m k v) k' = if beq k' k then Some v else mget m k'.
Proof. reflexivity. Qed.

Lemma upd_length {A} (l : list A) i x : length (upd l i x) = length l.
Proof. revert i; induction l as [|h t IH]; intros [|i]; cbn; auto. Qed.
Lemma upd_same {A} (l : list A) i x : (i < length l)%nat -> nth_error (upd l i x) i = Some x.
Proof. revert i; induction l as [|h t IH]; intros [|i] H; cbn in *; try lia; auto. apply IH. lia. Qed.
Lemma upd_other {A} (l : list A) i j x : i <> j -> nth_error (upd l i x) j = nth_error l j.
Proof. revert i j; induction l as [|h t IH]; intros [|i] [|j] H; cbn in *; try congruence; auto. Qed.

(* every registry's parent was created before it *)
Definition wf (h : heap) : Prop := forall i g q, nth_error h i = Some g -> parent g = Some q -> (q < i)%nat.

Lemma wf_register vn vr h r f b h' : wf h -> register vn vr h r f b = Ok h' -> wf h'.
Proof.
  intros W E. unfold register in E. destruct (negb _); [discriminate|]. destruct (negb _); [discriminate|].
  destruct (nth_error h r) as [g|] eqn:G; [|discriminate]. destruct (negb b && _); [discriminate|]. injection E as <-.
  intros i g' q H P. destruct (Nat.eq_dec r i) as [<-|N].
  - rewrite upd_same in H by (apply nth_error_Some; congruence). injection H as <-. cbn in P. eapply W; eassumption.
  - rewrite upd_other in H by assumption. eapply W; eassumption.
Qed.

Lemma wf_clone h r : wf h -> (r < length h)%nat -> wf (fst (clone h r)).
Proof.
  intros W R i g q H P. cbn in H. destruct (Nat.lt_ge_cases i (length h)) as [L|L].
  - rewrite nth_error_app1 in H by assumption. eapply W; eassumption.
  - rewrite nth_error_app2 in H by assumption. destruct (i - length h)%nat as [|k] eqn:D; cbn in H.
    + injection H as <-. cbn in P. injection P as <-. lia.
    + destruct k; discriminate.
Qed.

(* lookup by parents: fuel is enough when it exceeds the index *)
Lemma lookup_fuel h name : wf h -> forall k1 k2 r, (r < k1)%nat -> (r < k2)%nat ->
  lookup_loop k1 h r name = lookup_loop k2 h r name.
Proof.
  intros W. induction k1 as [|k1 IH]; intros k2 r H1 H2; [lia|]. destruct k2 as [|k2]; [lia|]. cbn [lookup_loop].
  destruct (nth_error h r) as [g|] eqn:G; [|reflexivity]. destruct (mget (factories g) name); [reflexivity|].
  destruct (parent g) as [q|] eqn:P; [|reflexivity]. pose proof (W _ _ _ G P). apply IH; lia.
Qed.

Lemma lookup_unfold h r g name : wf h -> nth_error h r = Some g ->
  lookup h r name = match mget (factories g) name with
                    | Some f => Some f
                    | None => match parent g with Some q => lookup h q name | None => None end
                    end.
Proof.
  intros W G. unfold lookup. assert (R : (r < length h)%nat) by (apply nth_error_Some; congruence).
  rewrite (lookup_fuel h name W (length h) (S (length h)) r) by lia. cbn [lookup_loop]. rewrite G.
  destruct (mget (factories g) name); [reflexivity|]. destruct (parent g) as [q|] eqn:P; [|reflexivity].
  pose proof (W _ _ _ G P). apply lookup_fuel; [assumption|lia|lia].
Qed.

(* ancestors *)
Inductive ancestor (h : heap) : nat -> nat -> Prop :=
| anc_self r : ancestor h r r
| anc_step r g q a : nth_error h r = Some g -> parent g = Some q -> ancestor h q a -> ancestor h r a.

Lemma lookup_register_other vn vr h r f b h' i name : wf h -> register vn vr h r f b = Ok h' ->
  ~ ancestor h i r \/ name <> fname f -> lookup h' i name = lookup h i name.
Proof.
  intros W E. pose proof (wf_register _ _ _ _ _ _ _ W E) as W'. unfold register in E.
  destruct (negb _); [discriminate|]. destruct (negb _); [discriminate|].
  destruct (nth_error h r) as [g|] eqn:G; [|discriminate]. destruct (negb b && _); [discriminate|]. injection E as <-.
  set (h' := upd h r _) in *. induction i as [i IH] using lt_wf_ind. intros N.
  destruct (nth_error h i) as [gi|] eqn:GI.
  - destruct (Nat.eq_dec r i) as [<-|NE].
    + destruct N as [N|N]; [exfalso; apply N; constructor|].
      assert (GI' : nth_error h' r = Some (Reg (mset (factories g) (fname f) f) (parent g)))
        by (unfold h'; apply upd_same; apply nth_error_Some; congruence).
      rewrite (lookup_unfold h' r _ name W' GI'), (lookup_unfold h r _ name W GI). rewrite G in GI. injection GI as <-.
      cbn [factories parent]. rewrite mget_mset. destruct (beq name (fname f)) eqn:B; [apply beq_true in B; congruence|].
      destruct (mget (factories g) name); [reflexivity|]. destruct (parent g) as [q|] eqn:P; [|reflexivity].
      apply IH; [eapply W; eassumption|now right].
    + assert (GI' : nth_error h' i = Some gi) by (unfold h'; now rewrite upd_other).
      rewrite (lookup_unfold h' i _ name W' GI'), (lookup_unfold h i _ name W GI).
      destruct (mget (factories gi) name); [reflexivity|]. destruct (parent gi) as [q|] eqn:P; [|reflexivity].
      apply IH; [eapply W; eassumption|]. destruct N as [N|N]; [left|now right].
      intros A. apply N. econstructor; eassumption.
  - assert (GI' : nth_error h' i = None).
    { apply nth_error_None. unfold h'. rewrite upd_length. now apply nth_error_None. }
    unfold lookup. destruct (length h'), (length h); cbn; rewrite ?GI, ?GI'; reflexivity.
Qed.

Lemma lookup_clone h r : wf h -> (r < length h)%nat -> forall name,
  lookup (fst (clone h r)) (snd (clone h r)) name = lookup h r name /\
  forall i, (i < length h)%nat -> lookup (fst (clone h r)) i name = lookup h i name.
Proof.
  intros W R name. pose proof (wf_clone h r W R) as W'.
  assert (O : forall i, (i < length h)%nat -> lookup (fst (clone h r)) i name = lookup h i name).
  { induction i as [i IH] using lt_wf_ind. intros I. destruct (nth_error h i) as [g|] eqn:G; [|apply nth_error_None in G; lia].
    assert (G' : nth_error (fst (clone h r)) i = Some g) by (cbn; now rewrite nth_error_app1).
    rewrite (lookup_unfold _ i g name W' G'), (lookup_unfold _ i g name W G).
    destruct (mget (factories g) name); [reflexivity|]. destruct (parent g) as [q|] eqn:P; [|reflexivity].
    pose proof (W _ _ _ G P). apply IH; lia. }
  split; [|assumption].
  assert (G' : nth_error (fst (clone h r)) (snd (clone h r)) = Some (Reg [] (Some r))).
  { cbn. rewrite nth_error_app2, Nat.sub_diag by lia. reflexivity. }
  rewrite (lookup_unfold _ _ _ name W' G'). cbn [factories mget parent]. now apply O.
Qed.

(* ---- catalog ---- *)

Definition rev_of (o : option factory) : bytes := match o with Some f => if fdisc f then frev f else [] | None => [] end.

Lemma catalog_mget_fold fs m name :
  mget (fold_right (fun '(n, f) m => mset m n (if fdisc f then frev f else [])) m fs) name =
  match mget fs name with Some f => Some (rev_of (Some f)) | None => mget m name end.
Proof.
  induction fs as [|[n f] t IH]; cbn [fold_right mget]; [reflexivity|]. rewrite mget_mset. destruct (beq name n); [reflexivity|assumption].
Qed.

Lemma catalog_mget h name : wf h -> forall k r m, (r < k)%nat -> (r < length h)%nat ->
  mget (catalog_loop k h r m) name =
  match lookup h r name with Some f => Some (rev_of (Some f)) | None => mget m name end.
Proof.
  intros W. induction k as [|k IH]; intros r m H R; [lia|]. cbn [catalog_loop].
  destruct (nth_error h r) as [g|] eqn:G; [|apply nth_error_None in G; lia].
  rewrite catalog_mget_fold, (lookup_unfold h r g name W G). destruct (mget (factories g) name); [reflexivity|].
  destruct (parent g) as [q|] eqn:P; [|reflexivity]. pose proof (W _ _ _ G P). rewrite IH by lia. reflexivity.
Qed.

Lemma existsb_beq k seen : existsb (beq k) seen = true <-> In k seen.
Proof.
  rewrite existsb_exists. split; [intros (x & H & E); apply beq_true in E; now subst|]. intros H. exists k. split; [assumption|apply beq_refl].
Qed.

Lemma mkeys_In {V} (m : list (bytes * V)) : forall seen k v,
  In (k, v) (mkeys seen m) <-> ~ In k seen /\ mget m k = Some v.
Proof.
  induction m as [|[k0 v0] t IH]; intros seen k v; cbn [mkeys mget]; [cbn; intuition discriminate|].
  destruct (existsb (beq k0) seen) eqn:X.
  - rewrite IH. apply existsb_beq in X. destruct (beq k k0) eqn:B; [|tauto]. apply beq_true in B. subst. tauto.
  - assert (X' : ~ In k0 seen) by (rewrite <- existsb_beq; congruence). cbn [In]. rewrite IH. cbn [In].
    destruct (beq k k0) eqn:B.
    + apply beq_true in B. subst. split; [intros [E|[A _]]; [injection E as <-; tauto|tauto]|]. intros [A E]. injection E as <-. tauto.
    + assert (k <> k0) by (intros ->; rewrite beq_refl in B; discriminate).
      split; [intros [E|[A C]]; [injection E as <- <-; congruence|tauto]|]. intros [A E]. right. split; [|assumption]. intros [Q|Q]; congruence.
Qed.

Lemma mkeys_NoDup {V} (m : list (bytes * V)) : forall seen, NoDup (map fst (mkeys seen m)).
Proof.
  induction m as [|[k0 v0] t IH]; intros seen; cbn [mkeys]; [constructor|]. destruct (existsb _ _); [apply IH|].
  cbn [map fst]. constructor; [|apply IH]. intros H. apply in_map_iff in H. destruct H as ([k v] & E & H). cbn in E. subst k.
  apply mkeys_In in H. destruct H as [H _]. apply H. now left.
Qed.

Lemma filter_NoDup_fst {V} (P : bytes * V -> bool) l : NoDup (map fst l) -> NoDup (map fst (filter P l)).
Proof.
  induction l as [|x t IH]; cbn; [auto|]. intros H. inversion H as [|? ? N D]; subst. destruct (P x); [|auto].
  cbn. constructor; [|auto]. intros Q. apply N. apply in_map_iff in Q. destruct Q as (y & E & I). apply filter_In in I.
  apply in_map_iff. exists y. tauto.
Qed.

Lemma Catalog_In h r name rev : wf h -> (r < length h)%nat ->
  In (name, rev) (Catalog h r) <-> rev <> [] /\ exists f, lookup h r name = Some f /\ fdisc f = true /\ frev f = rev.
Proof.
  intros W R. unfold Catalog. rewrite filter_In, mkeys_In, (catalog_mget h name W) by assumption. cbn [mget].
  split.
  - intros [[_ E] F]. destruct (lookup h r name) as [f|]; [|discriminate]. unfold rev_of in E. injection E as E.
    assert (rev <> []) by (intros ->; rewrite beq_refl in F; discriminate). split; [assumption|].
    exists f. destruct (fdisc f); [tauto|congruence].
  - intros [N (f & -> & D & E)]. cbn. rewrite D, E. split; [tauto|]. destruct (beq rev []) eqn:B; [apply beq_true in B; contradiction|reflexivity].
Qed.

(* ---- starting and suspending ---- *)

Lemma start_loop_ok look initial : forall seen l seen', start_loop look seen initial = Ok (l, seen') ->
  l = map (fun '(n, b) => Svc n b (look n)) initial /\ NoDup (used l) /\ (forall i, In i (used l) -> ~ In i seen) /\
  (forall i, In i seen' <-> In i seen \/ In i (used l)).
Proof.
  induction initial as [|[n b] t IH]; intros seen l seen' E; cbn [start_loop] in E.
  - injection E as <- <-. cbn. repeat split; [constructor|tauto|tauto|tauto].
  - cbn [map]. destruct (look n) as [f|] eqn:L.
    + destruct (existsb _ _) eqn:X; [discriminate|]. destruct (start_loop look (fid f :: seen) t) as [[l' s']| |] eqn:R; try discriminate.
      cbn [bind] in E. injection E as <- <-. destruct (IH _ _ _ R) as (-> & N & F & S). cbn [used sfac].
      assert (XN : ~ In (fid f) seen) by (rewrite <- existsb_In; congruence).
      split; [reflexivity|]. split; [constructor; [intros Q; apply (F _ Q); now left|assumption]|].
      split; [intros i [<-|Hi]; [assumption|]; intros Q; apply (F i Hi); now right|]. intros i. rewrite S. cbn. intuition.
    + destruct (start_loop look seen t) as [[l' s']| |] eqn:R; try discriminate.
      cbn [bind] in E. injection E as <- <-. destruct (IH _ _ _ R) as (-> & N & F & S). cbn [used sfac]. auto.
Qed.

Lemma start_loop_fresh look initial : forall seen,
  let l := map (fun '(n, b) => Svc n b (look n)) initial in
  NoDup (used l) -> (forall i, In i (used l) -> ~ In i seen) -> exists seen', start_loop look seen initial = Ok (l, seen').
Proof.
  induction initial as [|[n b] t IH]; intros seen l N F; unfold l in *; cbn [start_loop map] in *; [eauto|].
  destruct (look n) as [f|] eqn:L; cbn [used sfac] in N, F.
  - destruct (existsb _ _) eqn:X; [exfalso; apply existsb_In in X; apply (F (fid f)); [now left|assumption]|].
    inversion N; subst. destruct (IH (fid f :: seen)) as (s' & E); [assumption| |].
    { intros i Hi [<-|Q]; [contradiction|]. apply (F i); [now right|assumption]. }
    rewrite E. cbn [bind]. eauto.
  - destruct (IH seen N F) as (s' & E). rewrite E. cbn [bind]. eauto.
Qed.

Lemma suspend_nth m state l : forall i k s, nth_error l k = Some s ->
  nth_error (suspend_loop m state i l) k =
  Some (sname s, match iget m (i + k)%nat with Some (Some _) => match state (i + k)%nat with [] => sbuf s | b => b end | _ => sbuf s end).
Proof.
  induction l as [|x t IH]; intros i [|k] s E; cbn in E; try discriminate.
  - injection E as ->. cbn [suspend_loop nth_error]. now rewrite Nat.add_0_r.
  - cbn [suspend_loop nth_error]. rewrite (IH (S i) k s E). now replace (S i + k)%nat with (i + S k)%nat by lia.
Qed.

Lemma suspend_names m state l : forall i, map fst (suspend_loop m state i l) = map sname l.
Proof. induction l as [|x t IH]; intros i; cbn; [reflexivity|]. now rewrite IH. Qed.

Lemma start_instances_get l : forall i k, iget (start_instances i l) k =
  if (k <? i)%nat then None else match nth_error l (k - i) with Some s => Some (snd (start_instance k s)) | None => None end.
Proof.
  induction l as [|s t IH]; intros i k; cbn [start_instances iget].
  - destruct (k <? i)%nat; [reflexivity|]. now destruct (k - i)%nat.
  - cbn [start_instance iget]. destruct (Nat.eqb_spec k i) as [->|N].
    + rewrite Nat.ltb_irrefl, Nat.sub_diag. reflexivity.
    + rewrite IH. destruct (Nat.ltb_spec k (S i)), (Nat.ltb_spec k i); try lia; try reflexivity.
      replace (k - i)%nat with (S (k - S i)) by lia. reflexivity.
Qed.
