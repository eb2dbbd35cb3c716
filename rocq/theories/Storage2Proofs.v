(* Storage2Proofs.v: durability of stored and of removed instances. *)
From Verif Require Import BaseLemmas ListLemmas ManifestProofs StorageSpec StorageProofs.
Local Arguments String.eqb : simpl never.
Local Open Scope Z_scope.

Definition kept (n : string) (w : world) : Prop := disk (wdir w) n = [Some me].

Lemma kept_linked n w : kept n w -> linked w n.
Proof. intros K. unfold linked. rewrite K. left. reflexivity. Qed.
Lemma kept_cur n w : WF w -> kept n w -> cur (wdir w) n = Some me.
Proof. intros (A & _) K. specialize (A n). rewrite K in A. destruct A as [<-|[]]. reflexivity. Qed.

Lemma assign_dir f w : wdir (snd (fst (assign f w))) = wdir w /\ fst (fst (assign f w)) = [].
Proof. split; reflexivity. Qed.

Lemma kept_step g w e n : Inv g w -> kept n w -> clean e -> takes_down e = false ->
  offer e w g = g /\ Forall (kept n) (between e w) /\ kept n (after e w).
Proof.
  intros IW K CL TD. pose proof IW as [SW [HS HI]].
  pose proof (kept_linked _ _ K) as LK. pose proof (kept_cur _ _ (proj1 SW) K) as CU.
  destruct e; try discriminate TD; unfold between, after, offer; cbn [exec].
  - unfold Store, on_inst. destruct (hnd w) as [i|] eqn:H; [|cbn; auto].
    destruct HI as (V & MD & U & L).
    destruct (String.eqb (iname i) "") eqn:E.
    { apply String.eqb_eq in E. destruct (U E n LK). }
    apply String.eqb_neq in E. destruct (L E) as (_ & CO & _). rewrite CO. cbn. auto.
  - cbn. auto.
  - cbn. auto.
  - cbn. auto.
  - cbn. auto.
  - cbn. auto.
  - destruct (_ && _); cbn; auto.
  - unfold CheckMutation, on_inst. destruct (hnd w) as [i|]; [|cbn; auto].
    destruct (coherent i); [cbn; auto|]. destruct (negb _); [cbn; auto|]. destruct (_ =? 0); cbn; auto.
  - cbn. auto.
  - unfold LoadInstance. destruct (hnd w); [cbn; auto|].
    destruct (cur (wdir w) name) as [[|k]|]; [|cbn; auto|cbn; auto].
    destruct (load_manifest (cur (wfile w))); cbn; auto.
  - destruct (cur (wdir w) name) eqn:C; [cbn; auto|]. destruct n0 as [|n0]; [cbn; auto|].
    assert (KE : kept n (set_dir (wset (entry name (Some (S n0)))) w)).
    { unfold kept. cbn [set_dir wdir wset disk]. unfold entry. destruct (String.eqb name n) eqn:E; [|exact K].
      apply String.eqb_eq in E. congruence. }
    cbn. auto.
  - destruct (cur (wdir w) name) as [[|k]|] eqn:C; [cbn; auto| |cbn; auto].
    assert (KE : kept n (set_dir (wset (entry name None)) w)).
    { unfold kept. cbn [set_dir wdir wset disk]. unfold entry. destruct (String.eqb name n) eqn:E; [|exact K].
      apply String.eqb_eq in E. unfold me in CU. congruence. }
    cbn. auto.
  - assert (KE : kept n (set_dir (if fault then wfail else wsync) w)).
    { unfold kept. cbn [set_dir wdir]. destruct fault; cbn [wfail wsync disk]; [exact K|].
      destruct (dirty (wdir w) n); [rewrite CU; reflexivity|exact K]. }
    cbn. auto.
  - cbn [fst snd]. split; [reflexivity|]. split; [constructor|]. unfold kept. cbn [wdir on_disk disk].
    assert (I : In (survive cd (wdir w) n) (disk (wdir w) n)) by (apply survive_in, SW).
    unfold kept in K. rewrite K in I. destruct I as [<-|[]]. reflexivity.
Qed.

Lemma kept_points l : forall g w n, Inv g w -> kept n w -> Forall clean l -> Forall (fun e => takes_down e = false) l ->
  forall g' w', In (g', w') (points g w l) -> g' = g /\ kept n w'.
Proof.
  induction l as [|e l IH]; intros g w n IW K CL TD g' w' Hin; cbn [points] in Hin.
  - destruct Hin as [E|[]]. injection E as <- <-. auto.
  - destruct Hin as [E|Hin]; [injection E as <- <-; auto|].
    inversion CL as [|? ? C1 C2]; subst. inversion TD as [|? ? T1 T2]; subst.
    destruct (kept_step g w e n IW K C1 T1) as (OF & FB & KA). rewrite OF in Hin.
    apply in_app_iff in Hin as [Hin|Hin].
    + apply in_map_iff in Hin as (x & E & Hx). injection E as <- <-. split; [reflexivity|].
      apply (proj1 (Forall_forall _ _) FB x Hx).
    + destruct (step_inv g w e IW C1) as [_ IA]. rewrite OF in IA. eapply IH; eauto.
Qed.

Lemma unlinked_step g w e : Inv g w -> unlinked w -> clean e -> is_store e = false ->
  Forall unlinked (between e w) /\ unlinked (after e w).
Proof.
  intros IW U CL TD. pose proof IW as [SW [HS HI]].
  assert (NE : forall i, hnd w = Some i -> iname i = ""%string).
  { intros i H. rewrite H in HI. destruct HI as (_ & _ & _ & L).
    destruct (string_dec (iname i) ""%string) as [E|E]; [exact E|]. destruct (L E) as (_ & _ & LK). destruct (U _ LK). }
  destruct e; try discriminate TD; unfold between, after; cbn [exec].
  - unfold Unstore, on_inst. destruct (hnd w) as [i|] eqn:H; [|cbn; auto].
    rewrite (NE i eq_refl), String.eqb_refl. cbn. auto.
  - cbn. auto.
  - cbn. auto.
  - cbn. auto.
  - cbn. auto.
  - cbn. auto.
  - unfold BeginMutation, on_inst. destruct (hnd w) as [i|] eqn:H; [|cbn; auto].
    destruct (negb (coherent i)); [cbn; auto|]. unfold seqM, Unstore, on_inst. rewrite H.
    rewrite (NE i eq_refl), String.eqb_refl. cbn. auto.
  - destruct (_ && _); cbn; auto.
  - unfold CheckMutation, on_inst. destruct (hnd w) as [i|]; [|cbn; auto].
    destruct (coherent i); [cbn; auto|]. destruct (negb _); [cbn; auto|]. destruct (_ =? 0); cbn; auto.
  - cbn. auto.
  - unfold LoadInstance. destruct (hnd w); [cbn; auto|].
    destruct (cur (wdir w) name) as [[|k]|]; [|cbn; auto|cbn; auto].
    destruct (load_manifest (cur (wfile w))); cbn; auto.
  - destruct (cur (wdir w) name) eqn:C; [cbn; auto|]. destruct n as [|n]; [cbn; auto|].
    assert (UE : unlinked (set_dir (wset (entry name (Some (S n)))) w)).
    { intros x Lx. apply linked_set in Lx as [[_ E]|Lx]; [discriminate|]. exact (U x Lx). }
    cbn. auto.
  - destruct (cur (wdir w) name) as [[|k]|] eqn:C; [cbn; auto| |cbn; auto].
    assert (UE : unlinked (set_dir (wset (entry name None)) w)).
    { intros x Lx. apply linked_set in Lx as [[_ E]|Lx]; [discriminate|]. exact (U x Lx). }
    cbn. auto.
  - assert (UE : unlinked (set_dir (if fault then wfail else wsync) w)).
    { intros x Lx. apply linked_dir_sync in Lx; [|apply SW]. exact (U x Lx). }
    cbn. auto.
  - cbn [fst snd]. split; [constructor|]. intros x [E|[]].
    apply (U x). eapply crash_survive_dir; [apply SW|exact E].
Qed.

Lemma unlinked_points l : forall g w, Inv g w -> unlinked w -> Forall clean l -> Forall (fun e => is_store e = false) l ->
  forall g' w', In (g', w') (points g w l) -> unlinked w'.
Proof.
  induction l as [|e l IH]; intros g w IW K CL TD g' w' Hin; cbn [points] in Hin.
  - destruct Hin as [E|[]]. injection E as <- <-. auto.
  - destruct Hin as [E|Hin]; [injection E as <- <-; auto|].
    inversion CL as [|? ? C1 C2]; subst. inversion TD as [|? ? T1 T2]; subst.
    destruct (unlinked_step g w e IW K C1 T1) as (FB & KA).
    apply in_app_iff in Hin as [Hin|Hin].
    + apply in_map_iff in Hin as (x & E & Hx). injection E as <- <-.
      apply (proj1 (Forall_forall _ _) FB x Hx).
    + destruct (step_inv g w e IW C1) as [_ IA]. eapply IH; eauto.
Qed.

Lemma takedown_unlinks g w e : Inv g w -> clean e -> takes_down e = true -> result e w = Ok tt -> hnd w <> None ->
  unlinked (after e w).
Proof.
  intros IW CL TD R H.
  assert (X : forall x, Inv g x /\ (forall i, hnd x = Some i -> iname i = ""%string) -> hnd x <> None -> unlinked x).
  { intros x [[_ [_ HI]] N] Hx. destruct (hnd x) as [i|]; [|congruence]. destruct HI as (_ & _ & U & _). apply U, N. reflexivity. }
  destruct e; try discriminate TD; cbn [clean] in CL.
  - destruct (hoare_step _ _ (EUnstore f) _ _ w (unstore_hoare g f CL) IW) as (_ & Q & _). apply X; [apply Q, R|].
    unfold after. cbn [exec]. unfold Unstore, on_inst. destruct (hnd w) as [i|] eqn:HW; [|congruence].
    destruct (String.eqb (iname i) "") eqn:E; [cbn; congruence|]. unfold seqM, assign. rewrite HW.
    destruct (negb (hasDir i)); [discriminate|]. unfold sys_unlink, sys_dirsync, sys, set_hnd. cbn [wdir].
    destruct (f_unlink f); [discriminate|]. destruct (cur (wdir w) (iname i)); destruct (f_dirsync f); discriminate.
  - destruct (hoare_step _ _ (EBegin f) _ _ w (begin_hoare g f CL) IW) as (_ & Q & _). apply X; [apply Q, R|].
    unfold after. cbn [exec]. unfold BeginMutation, on_inst. destruct (hnd w) as [i|] eqn:HW; [|congruence].
    destruct (negb (coherent i)); [cbn; congruence|].
    unfold seqM, Unstore, on_inst, assign. rewrite HW.
    destruct (String.eqb (iname i) "") eqn:E; [cbn; rewrite HW; discriminate|]. unfold set_hnd at 1.
    unfold seqM. rewrite HW. destruct (negb (hasDir i)); [cbn; rewrite ?HW; discriminate|].
    unfold sys_unlink, sys_dirsync, sys, set_hnd. cbn [wdir wfile hnd].
    destruct (f_unlink f); [cbn; discriminate|].
    destruct (cur (wdir w) (iname i)); destruct (f_dirsync f); cbn; discriminate.
Qed.
