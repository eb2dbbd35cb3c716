(* Proofs about the module loaders. *)
From Verif Require Import Build BuildSpec BaseLemmas.

Definition stop (l : list section) : Prop :=
  match l with [] => True | Std id _ :: _ => 10 <= id | Custom _ :: _ => False end.

Definition early (b : build) : Prop :=
  bufLoader b = BufEarly /\ stackLoader b = StackEarly /\ finished b = 0%nat /\ stackMapped b = false /\ bufferMapped b = false /\
  breakpoints b = [] /\ entryIndex b = false /\
  ((snapLoader b = SnapRead /\ snapshot b = None) \/ (snapLoader b = SnapDuplicate /\ snapshot b <> None)).

Definition orelse {A} (o d : option A) : option A := match o with Some x => Some x | None => d end.

Lemma early_std b id n : early b -> early (set_std b id n).
Proof. unfold early. cbn. tauto. Qed.
Lemma early_wrap b n : early b -> early (set_wrap b n).
Proof. unfold early. cbn. tauto. Qed.

(* ---- initial sections ---- *)
Lemma init_fwd p : forall k l b b' l', (length l <= k)%nat -> early b -> load_initial p b l = Ok (b', l') ->
  exists I so xo, l = I ++ l' /\ stop l' /\ above (lastId b) (ids I) /\ Forall (fun i => i < 10) (ids I) /\
    gates I = opt (option_map (CSnapshot true) so) ++ opt (option_map CExport xo) /\
    (so <> None -> snapshot b = None) /\ (xo <> None -> snapshot b <> None \/ so <> None) /\
    (7 <= lastId b -> xo = None /\ exportSize b' = exportSize b) /\
    early b' /\ snapshot b' = orelse so (snapshot b) /\ exportWrap b' = orelse xo (exportWrap b) /\
    (forall n, xo = Some n -> 2 <= n /\ exists a c, I = a ++ Custom (CExport n) :: Std 7 (exportSize b') :: c).
Proof.
  induction k as [|k IH]; intros l b b' l' L E H.
  - destruct l; [|cbn in L; lia]. cbn in H. assert (b' = b) by congruence. assert (l' = []) by congruence. subst.
    exists [], None, None. cbn. repeat split; auto; try tauto; try congruence. all: try (apply E).
  - destruct l as [|[id n|c] t].
    + cbn in H. assert (b' = b) by congruence. assert (l' = []) by congruence. subst.
      exists [], None, None. cbn. repeat split; auto; try tauto; try congruence. all: try (apply E).
    + cbn [load_initial] in H. destruct (Z.leb_spec idCode id) as [C|C].
      * assert (b' = b) by congruence. assert (l' = Std id n :: t) by congruence. subst.
        exists [], None, None. cbn. repeat split; auto; try tauto; try congruence. all: try (apply E).
      * destruct (Z.leb_spec id (lastId b)) as [O|O]; [discriminate|].
        destruct (IH t _ b' l' ltac:(cbn in L; lia) (early_std _ id n E) H) as (I & so & xo & -> & S & A & F & G & C1 & C2 & C3 & C4 & C5 & C6 & C7).
        exists (Std id n :: I), so, xo. cbn [set_std lastId snapshot exportWrap exportSize] in *.
        split; [reflexivity|]. split; [exact S|]. split; [cbn; auto|]. split; [cbn; constructor; auto|]. split; [exact G|].
        split; [exact C1|]. split; [exact C2|]. split.
        { intros Q. destruct C3 as [X Y]; [lia|]. split; [exact X|]. rewrite Y. unfold idExport. destruct (Z.eqb_spec id 7); [lia|reflexivity]. }
        split; [exact C4|]. split; [exact C5|]. split; [exact C6|].
        intros n0 X. destruct (C7 n0 X) as (Y & a & c & ->). split; [exact Y|]. exists (Std id n :: a), c. reflexivity.
    + cbn [load_initial] in H. destruct c as [rd bps|n|rd|n im|].
      * cbn [load_custom] in H. destruct E as (E1 & E2 & E3 & E4 & E5 & E6 & E7 & E8).
        destruct E8 as [[E8 E9] | [E8 E9]]; rewrite E8 in H; [|discriminate]. destruct rd; [|discriminate]. cbn [bind] in H.
        apply IH in H; [|cbn in L; lia|unfold early; cbn; intuition congruence].
        destruct H as (I & so & xo & -> & S & A & F & G & C1 & C2 & C3 & C4 & C5 & C6 & C7). cbn in C1, C2, C5, A, C3, C6.
        assert (so = None) by (destruct so; auto; assert (Some l = None -> False) by congruence; exfalso; assert (X := C1 ltac:(congruence)); congruence). subst so.
        exists (Custom (CSnapshot true bps) :: I), (Some bps), xo. split; [reflexivity|]. split; [exact S|]. split; [exact A|]. split; [exact F|].
        split; [change (gates (Custom (CSnapshot true bps) :: I)) with (CSnapshot true bps :: gates I); rewrite G; reflexivity|]. split; [auto|]. split; [right; congruence|]. split; [exact C3|]. split; [exact C4|].
        split; [exact C5|]. split; [exact C6|]. intros n0 X. destruct (C7 n0 X) as (Y & a & c & ->). split; [exact Y|]. eexists (_ :: a), c. reflexivity.
      * cbn [load_custom] in H. destruct (snapshot b) as [sn|] eqn:SB; [|discriminate]. destruct (Z.ltb_spec n 2) as [N|N]; [discriminate|].
        destruct t as [|[id m|c] t]; try discriminate. destruct (Z.eqb_spec id idExport) as [->|]; [|discriminate]. cbn [bind] in H.
        cbn [load_initial] in H. change (idCode <=? idExport) with false in H. cbv iota in H. cbn [set_wrap lastId] in H.
        destruct (Z.leb_spec idExport (lastId b)) as [O|O]; [discriminate|].
        apply IH in H; [|cbn in L; lia|apply early_std, early_wrap; exact E].
        destruct H as (I & so & xo & -> & S & A & F & G & C1 & C2 & C3 & C4 & C5 & C6 & C7). cbn in C1, C2, C5, A, C3, C6. unfold idExport in *.
        rewrite SB in *.
        assert (so = None) by (destruct so; auto; exfalso; assert (X := C1 ltac:(congruence)); congruence). subst so.
        destruct C3 as [-> SZ]; [lia|]. cbn in SZ.
        exists (Custom (CExport n) :: Std 7 m :: I), None, (Some n). split; [reflexivity|]. split; [exact S|].
        split; [cbn; split; [lia|exact A]|]. split; [cbn; constructor; [lia|exact F]|]. split; [change (gates (Custom (CExport n) :: Std 7 m :: I)) with (CExport n :: gates I); rewrite G; reflexivity|].
        split; [congruence|]. split; [left; congruence|]. split; [lia|]. split; [exact C4|]. split; [cbn; exact C5|]. split; [exact C6|].
        intros n0 X. assert (n0 = n) by congruence. subst n0. split; [exact N|]. exists [], I. cbn. rewrite SZ. reflexivity.
      * cbn [load_custom] in H. destruct E as (E1 & _). rewrite E1 in H. discriminate.
      * cbn [load_custom] in H. destruct E as (_ & E1 & _). rewrite E1 in H. discriminate.
      * cbn [load_custom bind] in H. destruct (IH t b b' l' ltac:(cbn in L; lia) E H) as (I & so & xo & -> & S & A & F & G & C1 & C2 & C3 & C4 & C5 & C6 & C7).
        exists (Custom COther :: I), so, xo. repeat (split; [first [reflexivity|assumption]|]).
        intros n0 X. destruct (C7 n0 X) as (Y & a & c & ->). split; [exact Y|]. eexists (_ :: a), c. reflexivity.
Qed.

Lemma opt_snap_export so xo c t : opt (option_map (CSnapshot true) so) ++ opt (option_map CExport xo) = c :: t ->
  (exists x, so = Some x /\ c = CSnapshot true x /\ t = opt (option_map CExport xo)) \/
  (so = None /\ exists n, xo = Some n /\ c = CExport n /\ t = []).
Proof.
  destruct so as [x|]; cbn; intros H.
  - left. exists x. repeat split; congruence.
  - right. destruct xo as [n|]; cbn in H; [|discriminate]. split; auto. exists n. repeat split; congruence.
Qed.

Lemma init_bwd p m : forall k I b l' so xo, (length I <= k)%nat -> early b -> stop l' -> above (lastId b) (ids I) -> Forall (fun i => i < 10) (ids I) ->
  gates I = opt (option_map (CSnapshot true) so) ++ opt (option_map CExport xo) ->
  (so <> None -> snapshot b = None) -> (xo <> None -> snapshot b <> None \/ so <> None) ->
  (forall n, xo = Some n -> 2 <= n /\ exists a c, I = a ++ Custom (CExport n) :: Std 7 m :: c) ->
  exists b', load_initial p b (I ++ l') = Ok (b', l') /\ early b' /\ snapshot b' = orelse so (snapshot b) /\ exportWrap b' = orelse xo (exportWrap b) /\
    (7 <= lastId b -> exportSize b' = exportSize b) /\ (xo <> None -> exportSize b' = m).
Proof.
  induction k as [|k IH]; intros I b l' so xo L E S A F G C1 C2 C7.
  - destruct I; [|cbn in L; lia]. cbn [app]. cbn in G. destruct so; [discriminate|]. destruct xo; [discriminate|].
    exists b. split; [|repeat split; auto; try (apply E); congruence].
    destruct l' as [|[id n|c] t]; cbn; auto; [|destruct S]. cbn in S. destruct (Z.leb_spec idCode id) as [Q|Q]; auto. unfold idCode in Q. lia.
  - destruct I as [|[id n|c] t].
    + cbn [app]. cbn in G. destruct so; [discriminate|]. destruct xo; [discriminate|].
      exists b. split; [|repeat split; auto; try (apply E); congruence].
      destruct l' as [|[id n|c] t]; cbn; auto; [|destruct S]. cbn in S. destruct (Z.leb_spec idCode id) as [Q|Q]; auto. unfold idCode in Q. lia.
    + cbn [ids flat_map app above] in A, F. destruct A as [A1 A2]. inversion F as [|x y F1 F2]; subst.
      cbn [app load_initial]. destruct (Z.leb_spec idCode id) as [Q|Q]; [unfold idCode in Q; lia|]. destruct (Z.leb_spec id (lastId b)); [lia|].
      destruct (IH t (set_std b id n) l' so xo) as (b' & H1 & H2 & H3 & H4 & H5 & H6); auto; try (cbn in L; lia); try (now apply early_std).
      { intros n0 X. destruct (C7 n0 X) as (Y & a & c & Z1). split; [exact Y|]. destruct a as [|h a]; [discriminate Z1|]. exists a, c. cbn in Z1. congruence. }
      exists b'. cbn [set_std snapshot exportWrap exportSize lastId] in *. repeat split; auto; try (apply H2).
      intros Q7. rewrite H5 by lia. unfold idExport. destruct (Z.eqb_spec id 7); [lia|reflexivity].
    + destruct c as [rd bps|n|rd|n im|].
      * cbn [gates flat_map app] in G. symmetry in G. apply opt_snap_export in G as [(x & -> & G1 & G2) | (-> & n & _ & G1 & _)]; [|discriminate].
        assert (rd = true) by congruence. assert (bps = x) by congruence. subst rd x.
        assert (SB : snapshot b = None) by (apply C1; congruence).
        cbn [app load_initial load_custom]. destruct E as (E1 & E2 & E3 & E4 & E5 & E6 & E7 & E8).
        destruct E8 as [[E8 E9] | [E8 E9]]; [|congruence]. rewrite E8. cbn [bind].
        match goal with |- context [load_initial p ?bb _] => set (b1 := bb) end.
        destruct (IH t b1 l' None xo) as (b' & H1 & H2 & H3 & H4 & H5 & H6); auto; try (cbn in L; lia).
        { unfold early, b1. cbn. intuition congruence. }
        { congruence. }
        { intros _. left. cbn. congruence. }
        { intros n0 X. destruct (C7 n0 X) as (Y & a & c & Z1). split; [exact Y|]. destruct a as [|h a]; [discriminate Z1|]. exists a, c. cbn in Z1. congruence. }
        exists b'. cbn in H3, H4, H5, H6. repeat split; auto; try (apply H2).
      * cbn [gates flat_map app] in G. symmetry in G. apply opt_snap_export in G as [(x & -> & G1 & G2) | (-> & n0 & -> & G1 & G2)]; [discriminate|].
        assert (n0 = n) by congruence. subst n0. destruct (C7 n eq_refl) as (N & a & c & Z1).
        assert (SB : snapshot b <> None) by (destruct C2; congruence).
        destruct a as [|h a].
        2:{ exfalso. cbn in Z1. assert (T : t = a ++ Custom (CExport n) :: Std 7 m :: c) by congruence.
            subst t. change (gates (a ++ Custom (CExport n) :: Std 7 m :: c) = []) in G2. unfold gates in G2. rewrite flat_map_app in G2. apply app_eq_nil in G2 as [_ G2]. discriminate. }
        cbn in Z1. assert (T : t = Std 7 m :: c) by congruence. subst t.
        cbn [app load_initial load_custom]. destruct (snapshot b) as [sn|] eqn:SBE; [|congruence].
        destruct (Z.ltb_spec n 2); [lia|]. change (7 =? idExport) with true. cbn [bind]. change (idCode <=? 7) with false. cbv iota. cbn [set_wrap lastId].
        cbn [ids flat_map app above] in A, F. destruct A as [A1 A2]. inversion F as [|x y F1 F2]; subst.
        destruct (Z.leb_spec 7 (lastId b)) as [QQ|QQ]; [lia|].
        assert (EB : early (set_std (set_wrap b n) 7 m)) by (apply early_std, early_wrap; exact E).
        assert (GC : gates c = []) by exact G2.
        destruct (IH c (set_std (set_wrap b n) 7 m) l' None None) as (b' & H1 & H2 & H3 & H4 & H5 & H6);
          [cbn in L; lia|exact EB|exact S|exact A2|exact F2|exact GC|congruence|congruence|congruence|].
        exists b'. cbn in H3, H4, H5, H6. rewrite SBE in H3. repeat split; auto; try (apply H2); try lia.
      * exfalso. cbn [gates flat_map app] in G. symmetry in G. apply opt_snap_export in G as [(x & -> & G1 & G2) | (-> & n0 & -> & G1 & G2)]; discriminate.
      * exfalso. cbn [gates flat_map app] in G. symmetry in G. apply opt_snap_export in G as [(x & -> & G1 & G2) | (-> & n0 & -> & G1 & G2)]; discriminate.
      * cbn [app load_initial load_custom bind]. apply (IH t b l' so xo); auto; [cbn in L; lia|].
        intros n0 X. destruct (C7 n0 X) as (Y & a & c & Z1). split; [exact Y|]. destruct a as [|h a]; [discriminate Z1|]. exists a, c. cbn in Z1. congruence.
Qed.

(* ---- runs of custom sections ---- *)
Fixpoint run (p : params) (b : build) (gs : list custom) : res build :=
  match gs with
  | [] => Ok b
  | c :: t => do b <- load_custom p b c []; run p b t
  end.

Definition not_custom (l : list section) : Prop := match l with Custom _ :: _ => False | _ => True end.

Lemma load_custom_rest p b c r : (forall n, c <> CExport n) -> load_custom p b c r = load_custom p b c [].
Proof. destruct c; intros H; try reflexivity. exfalso. now apply (H length_). Qed.

Lemma customs_fwd p : forall l b b' l', load_customs p b l = Ok (b', l') ->
  exists M, l = M ++ l' /\ ids M = [] /\ not_custom l' /\ ((exists n t, l' = Std 7 n :: t) \/ run p b (gates M) = Ok b').
Proof.
  induction l as [|[id n|c] t IH]; intros b b' l' H; cbn [load_customs] in H.
  - assert (b' = b) by congruence. assert (l' = []) by congruence. subst. exists []. cbn. auto.
  - assert (b' = b) by congruence. assert (l' = Std id n :: t) by congruence. subst. exists []. cbn. auto.
  - destruct (load_custom p b c t) as [b1| |] eqn:LC; try discriminate. cbn [bind] in H.
    destruct (IH _ _ _ H) as (M & -> & I & N & D). exists (Custom c :: M). split; [reflexivity|]. split; [exact I|]. split; [exact N|].
    destruct D as [D|D]; [auto|]. destruct c as [rd bps|n|rd|n im|].
    2:{ left. cbn [load_custom] in LC. destruct (snapshot b); [|discriminate]. destruct (n <? 2); [discriminate|].
        destruct M as [|[id m|c] M]; [|discriminate I|discriminate LC]. cbn [app] in LC. destruct l' as [|[id m|c] t]; try discriminate.
        destruct (Z.eqb_spec id idExport) as [->|]; [|discriminate]. eexists _, _. reflexivity. }
    all: right. 4: cbn in LC; assert (b1 = b) by congruence; subst; exact D.
    all: match goal with |- run _ _ (gates (Custom ?c :: ?m)) = _ => change (gates (Custom c :: m)) with (c :: gates m) end; cbn [run].
    all: rewrite load_custom_rest in LC by discriminate.
    all: rewrite LC.
    all: exact D.
Qed.

Lemma customs_bwd p l' b' : forall M b, ids M = [] -> not_custom l' -> run p b (gates M) = Ok b' -> load_customs p b (M ++ l') = Ok (b', l').
Proof.
  induction M as [|[id n|c] M IH]; intros b I N R.
  - cbn in R. assert (b' = b) by congruence. subst. cbn [app]. destruct l' as [|[id n|c] t]; cbn; auto. destruct N.
  - discriminate.
  - cbn [app load_customs]. destruct c as [rd bps|n|rd|n im|].
    2:{ exfalso. change (gates (Custom (CExport n) :: M)) with (CExport n :: gates M) in R. cbn in R. destruct (snapshot b); [|discriminate]. destruct (n <? 2); discriminate. }
    4:{ cbn [load_custom bind]. apply IH; auto. }
    all: match goal with X : run _ _ (gates (Custom ?c :: ?m)) = _ |- _ => change (gates (Custom c :: m)) with (c :: gates m) in X end.
    all: cbn [run] in R; rewrite load_custom_rest by discriminate;
      match type of R with bind ?e _ = _ => destruct e as [b1| |]; try discriminate end; cbn [bind] in *; apply IH; auto.
Qed.

(* after the last of them *)
Definition late (b : build) : Prop :=
  snapLoader b = SnapLate /\ (bufLoader b = BufDuplicate \/ bufLoader b = BufLate) /\ (stackLoader b = StackDuplicate \/ stackLoader b = StackLate).

Lemma export_rejected p b n gs b' : run p b (CExport n :: gs) <> Ok b'.
Proof. cbn. destruct (snapshot b); [|discriminate]. destruct (n <? 2); discriminate. Qed.

Lemma no_other l : Forall (fun c => c <> COther) (gates l).
Proof. induction l as [|[id n|[]] t IH]; try exact IH; constructor; auto; discriminate. Qed.

Lemma run_late p b gs b' : late b -> Forall (fun c => c <> COther) gs -> run p b gs = Ok b' <-> gs = [] /\ b' = b.
Proof.
  intros (L1 & L2 & L3) NO. split.
  - intros R. destruct gs as [|c gs]; [cbn in R; split; congruence|]. exfalso. inversion NO; subst. destruct c as [rd bps|n|rd|n im|]; try congruence.
    + cbn in R. rewrite L1 in R. discriminate.
    + exact (export_rejected _ _ _ _ _ R).
    + cbn in R. destruct L2 as [L2|L2]; rewrite L2 in R; discriminate.
    + cbn in R. destruct L3 as [L3|L3]; rewrite L3 in R; discriminate.
  - intros [-> ->]. reflexivity.
Qed.

Definition stack_fits (p : params) (n : Z) : Prop :=
  n <= (stackSize p mod 2 ^ 32 - (64 + 4832 * 2 + 240)) mod 2 ^ 32 /\ 64 + 4832 * 2 + 240 + n <= stackSize p.

Definition with_stack (b : build) : build :=
  set_mapped (set_loaders b SnapLate BufLate StackDuplicate) (bufferMapped b) true (S (finished b)).

Lemma step_stack p b n im r b' : stackLoader b = StackRead ->
  load_custom p b (CStack n im) r = Ok b' <->
  snapshot b <> None /\ entryIndex b = false /\ stack_fits p n /\ im = true /\ b' = with_stack b.
Proof.
  intros L. cbn [load_custom]. rewrite L. cbn [set_loaders snapshot entryIndex].
  destruct (snapshot b) as [sn|] eqn:SN; [|split; [discriminate|tauto]].
  destruct (entryIndex b) eqn:EI; [split; [discriminate|intros (_ & X & _); discriminate]|].
  assert (Q : u32 (u32 (stackSize p) - stackUsageOffset) = (stackSize p mod 2 ^ 32 - (64 + 4832 * 2 + 240)) mod 2 ^ 32) by reflexivity.
  unfold stack_fits. rewrite Q. rewrite Z.gtb_ltb.
  set (X := (stackSize p mod 2 ^ 32 - (64 + 4832 * 2 + 240)) mod 2 ^ 32). clearbody X.
  destruct (Z.ltb_spec X n); [split; [discriminate|lia]|].
  unfold finishImageText. change stackUsageOffset with (64 + 4832 * 2 + 240). destruct (Z.ltb_spec (stackSize p) (64 + 4832 * 2 + 240 + n)); [split; [discriminate|lia]|].
  cbn [bind]. destruct im; [|split; [discriminate|intros (_ & _ & _ & Y & _); discriminate]].
  unfold with_stack, set_loaders, set_mapped.
  cbn [snapLoader bufLoader stackLoader snapshot exportWrap exportSize bufferMapped stackMapped lastId entryIndex breakpoints finished]. rewrite SN, ?EI. split.
  - intros Y. repeat split; try lia; congruence.
  - intros (_ & _ & _ & _ & Y). congruence.
Qed.

Definition with_buffer (b : build) : build := set_mapped (set_loaders b SnapLate BufDuplicate (stackLoader b)) true (stackMapped b) (finished b).

Lemma step_buffer p b rd r b' : bufLoader b = BufRead ->
  load_custom p b (CBuffer rd) r = Ok b' <-> snapshot b <> None /\ rd = true /\ b' = with_buffer b.
Proof.
  intros L. cbn [load_custom]. rewrite L. unfold with_buffer, set_loaders, set_mapped. cbn. destruct (snapshot b) eqn:SN; [|split; [discriminate|tauto]].
  destruct rd; [|split; [discriminate|intros (_ & X & _); discriminate]]. split.
  - intros X. repeat split; congruence.
  - intros (_ & _ & X). congruence.
Qed.

Definition stack_result (b : build) (st : option Z) : build := match st with Some _ => with_stack b | None => b end.
Definition buf_result (b : build) (buf : bool) : build := if buf then with_buffer b else b.
Definition snap_result (b : build) (so : option (list Z)) : build := match so with Some bps => set_snap b SnapDuplicate (Some bps) | None => b end.

(* only a stack may follow *)
Lemma run_stack p b gs b' : stackLoader b = StackRead -> snapLoader b = SnapLate -> bufLoader b = BufDuplicate -> snapshot b <> None -> Forall (fun c => c <> COther) gs ->
  run p b gs = Ok b' <-> exists st, gs = opt (option_map (fun n => CStack n true) st) /\ b' = stack_result b st /\
    forall n, st = Some n -> entryIndex b = false /\ stack_fits p n.
Proof.
  intros L1 L2 L3 S NO. split.
  - intros R. destruct gs as [|c gs].
    { exists None. cbn in *. repeat split; congruence. }
    inversion NO; subst. destruct c as [rd bps|n|rd|n im|]; try congruence.
    + cbn in R. rewrite L2 in R. discriminate.
    + destruct (export_rejected _ _ _ _ _ R).
    + cbn in R. rewrite L3 in R. discriminate.
    + cbn [run] in R. destruct (load_custom p b (CStack n im) []) as [b1| |] eqn:LC; try discriminate. cbn [bind] in R.
      apply step_stack in LC as (_ & E & F & -> & ->); [|exact L1].
      apply run_late in R as [-> ->]; [|unfold late, with_stack; cbn; auto|assumption].
      exists (Some n). cbn. repeat split; auto; assert (n0 = n) by congruence; subst; apply F.
  - intros (st & -> & -> & C). destruct st as [n|]; [|reflexivity]. destruct (C n eq_refl) as [E F]. cbn [option_map opt run].
    assert (Q : load_custom p b (CStack n true) [] = Ok (with_stack b)) by (apply step_stack; auto). rewrite Q. reflexivity.
Qed.

Lemma run_buffer p b gs b' : stackLoader b = StackRead -> snapLoader b <> SnapRead -> bufLoader b = BufRead -> snapshot b <> None -> Forall (fun c => c <> COther) gs ->
  run p b gs = Ok b' <-> exists buf st, gs = (if buf : bool then [CBuffer true] else []) ++ opt (option_map (fun n => CStack n true) st) /\
    b' = stack_result (buf_result b buf) st /\
    forall n, st = Some n -> entryIndex b = false /\ stack_fits p n.
Proof.
  intros L1 L2 L3 S NO. split.
  - intros R. destruct gs as [|c gs].
    { exists false, None. cbn in *. repeat split; congruence. }
    inversion NO; subst. destruct c as [rd bps|n|rd|n im|]; try congruence.
    + cbn in R. destruct (snapLoader b); try discriminate. congruence.
    + destruct (export_rejected _ _ _ _ _ R).
    + cbn [run] in R. destruct (load_custom p b (CBuffer rd) []) as [b1| |] eqn:LC; try discriminate. cbn [bind] in R.
      apply step_buffer in LC as (_ & -> & ->); [|exact L3].
      apply run_stack in R as (st & -> & -> & C); auto.
      exists true, st. repeat split; auto; apply (C _ H).
    + cbn [run] in R. destruct (load_custom p b (CStack n im) []) as [b1| |] eqn:LC; try discriminate. cbn [bind] in R.
      apply step_stack in LC as (_ & E & F & -> & ->); [|exact L1].
      apply run_late in R as [-> ->]; [|unfold late, with_stack; cbn; auto|assumption].
      exists false, (Some n). cbn. repeat split; auto; assert (n0 = n) by congruence; subst; apply F.
  - intros (buf & st & -> & -> & C). destruct buf.
    + cbn [app run]. assert (Q : load_custom p b (CBuffer true) [] = Ok (with_buffer b)) by (apply step_buffer; auto). rewrite Q. cbn [bind].
      apply run_stack; auto.
      { destruct st; constructor; [discriminate|constructor]. }
      exists st. cbn. repeat split; auto; apply (C _ H).
    + cbn [app buf_result]. destruct st as [n|]; [|reflexivity]. destruct (C n eq_refl) as [E F]. cbn [option_map opt run].
      assert (Q : load_custom p b (CStack n true) [] = Ok (with_stack b)) by (apply step_stack; auto). rewrite Q. reflexivity.
Qed.

Definition mid (b : build) : Prop :=
  stackLoader b = StackRead /\ bufLoader b = BufRead /\
  ((snapLoader b = SnapRead /\ snapshot b = None) \/ (snapLoader b = SnapDuplicate /\ snapshot b <> None)).

Lemma run_mid p b gs b' : mid b -> Forall (fun c => c <> COther) gs ->
  run p b gs = Ok b' <-> exists so buf st,
    gs = opt (option_map (CSnapshot true) so) ++ (if buf : bool then [CBuffer true] else []) ++ opt (option_map (fun n => CStack n true) st) /\
    b' = stack_result (buf_result (snap_result b so) buf) st /\
    (so <> None -> snapshot b = None) /\
    (buf = true \/ st <> None -> snapshot b <> None \/ so <> None) /\
    forall n, st = Some n -> entryIndex b = false /\ stack_fits p n.
Proof.
  intros (L1 & L2 & [[L3 S]|[L3 S]]) NO.
  - split.
    + intros R. destruct gs as [|c gs].
      { exists None, false, None. cbn in *. repeat split; auto; try congruence. intros [X|X]; congruence. }
      inversion NO; subst. destruct c as [rd bps|n|rd|n im|]; try congruence.
      * cbn [run] in R. destruct (load_custom p b (CSnapshot rd bps) []) as [b1| |] eqn:LC; try discriminate. cbn [bind] in R.
        cbn [load_custom] in LC. rewrite L3 in LC. cbn in LC. destruct rd; [|discriminate].
        assert (E1 : b1 = set_snap b SnapDuplicate (Some bps)) by (unfold set_snap in *; cbn in *; congruence). subst b1.
        apply run_buffer in R as (buf & st & -> & -> & C); auto; try (cbn; congruence).
        exists (Some bps), buf, st. repeat split; auto; try (apply (C _ H)). intros _. right. congruence.
      * destruct (export_rejected _ _ _ _ _ R).
      * cbn [run] in R. destruct (load_custom p b (CBuffer rd) []) as [b1| |] eqn:LC; try discriminate.
        apply step_buffer in LC as (X & _); congruence.
      * cbn [run] in R. destruct (load_custom p b (CStack n im) []) as [b1| |] eqn:LC; try discriminate.
        apply step_stack in LC as (X & _); congruence.
    + intros (so & buf & st & -> & -> & C1 & C2 & C3). destruct so as [bps|].
      * cbn [option_map opt app run]. cbn [load_custom]. rewrite L3. cbn [bind].
        change (set_snap (set_snap b SnapDuplicate (snapshot b)) SnapDuplicate (Some bps)) with (snap_result b (Some bps)).
        apply run_buffer; cbn; auto; try congruence.
        { apply Forall_app. split; [destruct buf|destruct st]; repeat constructor; discriminate. }
        exists buf, st. repeat split; auto; apply (C3 _ H).
      * destruct buf; [destruct C2; [auto|congruence|congruence]|]. destruct st; [destruct C2; [right|congruence|congruence]; congruence|]. reflexivity.
  - rewrite run_buffer; auto; [|congruence]. split.
    + intros (buf & st & -> & -> & C). exists None, buf, st. cbn. repeat split; auto; try congruence; apply (C _ H).
    + intros (so & buf & st & -> & -> & C1 & C2 & C3). destruct so; [exfalso; apply S, C1; congruence|]. exists buf, st. repeat split; auto; apply (C3 _ H).
Qed.

(* ---- the whole ---- *)
Definition fields (b : build) := (snapLoader b, bufLoader b, stackLoader b, snapshot b, entryIndex b, finished b, stackMapped b, breakpoints b).

Lemma stop_code b l : stop l ->
  (load_std idCode b l = Ok (b, l) /\ (l = [] \/ exists i n t, l = Std i n :: t /\ 10 < i)) \/
  (exists n t, l = Std 10 n :: t /\ load_std idCode b l = Ok (set_std b 10 n, t)).
Proof.
  intros S. destruct l as [|[i n|c] t]; [left; cbn; auto| |destruct S]. cbn in S.
  unfold load_std. destruct (Z.eqb_spec i idCode) as [->|N]; [right; eexists _, _; split; reflexivity|].
  unfold idCode in *. destruct (Z.ltb_spec i 10); [lia|]. left. split; auto. right. exists i, n, t. split; auto. lia.
Qed.

Lemma not_custom_data b l b' l' : not_custom l -> load_std idData b l = Ok (b', l') ->
  (b' = b /\ l' = l /\ (l = [] \/ exists i n t, l = Std i n :: t /\ 11 < i)) \/
  (exists n, l = Std 11 n :: l' /\ b' = set_std b 11 n).
Proof.
  intros S H. destruct l as [|[i n|c] t]; [left; cbn in H; repeat split; auto; congruence| |destruct S].
  unfold load_std in H. destruct (Z.eqb_spec i idData) as [->|N].
  - change idData with 11 in H. right. exists n. split; [|congruence]. assert (l' = t) by congruence. subst. reflexivity.
  - unfold idData in *. destruct (Z.ltb_spec i 11); [discriminate|]. left. repeat split; try congruence. right. exists i, n, t. split; auto. lia.
Qed.

Lemma verify_ok p b b' : verifyBreakpoints p (codeConfig b) = Ok b' <->
  b' = codeConfig b /\ match snapshot b with Some bps => Forall (fun o => o < 2 ^ 32 /\ instruction p o = true) bps | None => True end.
Proof.
  unfold verifyBreakpoints, codeConfig. destruct (snapshot b) as [bps|] eqn:SN; cbn [snapshot set_breakpoints breakpoints]; rewrite SN.
  2:{ split; [intros H; split; [congruence|exact I]|intros [-> _]; reflexivity]. }
  assert (Q : existsb (fun o => o >? maxUint32) bps = false /\ forallb (instruction p) (filter (fun o => o <=? maxUint32) bps) = true <->
    Forall (fun o => o < 2 ^ 32 /\ instruction p o = true) bps).
  { clear SN. unfold maxUint32. induction bps as [|o t IH]; [cbn; split; auto|]. cbn [existsb filter]. rewrite Z.gtb_ltb, orb_false_iff.
    destruct (Z.leb_spec o (2 ^ 32 - 1)); destruct (Z.ltb_spec (2 ^ 32 - 1) o); try lia.
    - cbn [forallb]. rewrite andb_true_iff. split.
      + intros ([_ A] & B & C). constructor; [split; [lia|exact B]|]. apply IH. auto.
      + intros F. inversion F as [|x y [F1 F2] F3]; subst. apply IH in F3. tauto.
    - split; [intros [[X _] _]; discriminate|]. intros F. inversion F as [|x y [F1 F2] F3]; subst. lia. }
  destruct (existsb _ bps).
  { split; [discriminate|]. intros [_ X]. apply Q in X as [X _]. discriminate. }
  destruct (forallb _ _).
  - split; [intros H; split; [congruence|now apply Q]|intros [-> _]; reflexivity].
  - split; [discriminate|]. intros [_ X]. apply Q in X as [_ X]. discriminate.
Qed.

Lemma finish_ok p b st b' : stackMapped b = false ->
  finishText p (stack_result b st) = Ok b' <->
  match st with Some _ => b' = with_stack b | None => 64 + 4832 * 2 + 240 <= stackSize p /\ b' = set_mapped b (bufferMapped b) (stackMapped b) (S (finished b)) end.
Proof.
  intros SM. unfold finishText. destruct st as [n|]; cbn [stack_result].
  - change (stackMapped (with_stack b)) with true. cbv iota. split; congruence.
  - rewrite SM. unfold finishImageText. change (stackUsageOffset + 0) with (64 + 4832 * 2 + 240).
    destruct (Z.ltb_spec (stackSize p) (64 + 4832 * 2 + 240)); (split; [intros H1|intros [H1 H2]]).
    + discriminate.
    + lia.
    + split; [assumption|]. congruence.
    + subst b'. rewrite ?SM. reflexivity.
Qed.

Lemma bind_ok p b b' : bindFunctions p b = Ok b' <->
  (exists n, exportWrap b = Some n /\ exportSize b = n /\ entryName p = false /\ b' = b) \/
  (exportWrap b = None /\ exists e, entryFound p = Some e /\ b' = set_entry b e).
Proof.
  unfold bindFunctions. destruct (exportWrap b) as [n|] eqn:W.
  - destruct (Z.eqb_spec (exportSize b) n) as [E|E]; cbn [negb].
    + destruct (entryName p); split; try discriminate.
      * intros [(m & _ & _ & X & _)|[X _]]; discriminate.
      * intros H. left. exists n. repeat split; auto; congruence.
      * intros [(m & _ & _ & _ & X)|[X _]]; congruence.
    + split; [discriminate|]. intros [(m & X & Y & _)|[X _]]; congruence.
  - destruct (entryFound p) as [e|]; split; try discriminate.
    + intros H. right. split; auto. exists e. split; congruence.
    + intros [(m & X & _)|[_ (e' & X & Y)]]; congruence.
    + intros [(m & X & _)|[_ (e' & X & Y)]]; congruence.
Qed.


Definition rest (p : params) (b : build) (l : list section) : res build :=
  do '(b, l) <- load_customs p b l;
  do b <- finishText p b;
  let b := set_loaders b SnapLate BufLate StackLate in
  do '(b, l) <- load_std idData b l;
  do '(b, l) <- load_customs p b l;
  match l with
  | [] => Ok b
  | _ => Err
  end.

Definition parts (p : params) (b : build) (M D T : list section) (so : option (list Z)) (buf : bool) (st : option Z) : Prop :=
  ids M = [] /\ (D = [] \/ exists n, D = [Std 11 n]) /\ ids T = [] /\
  gates M = opt (option_map (CSnapshot true) so) ++ (if buf then [CBuffer true] else []) ++ opt (option_map (fun n => CStack n true) st) /\
  gates T = [] /\
  (so <> None -> snapshot b = None) /\
  (buf = true \/ st <> None -> snapshot b <> None \/ so <> None) /\
  (forall n, st = Some n -> entryIndex b = false /\ stack_fits p n) /\
  (st = None -> 64 + 4832 * 2 + 240 <= stackSize p).

Lemma rest_fwd p b l r : mid b -> stackMapped b = false -> rest p b l = Ok r ->
  exists M D T so buf st, l = M ++ D ++ T /\ parts p b M D T so buf st /\ finished r = S (finished b) /\ (D = [] -> T = []).
Proof.
  intros M5 SM H. unfold rest in H.
  destruct (load_customs p b l) as [[b6 l6]| |] eqn:H6; try discriminate. cbn [bind] in H. apply customs_fwd in H6 as (M & LM & IM & NC & D).
  destruct (finishText p b6) as [b7| |] eqn:H7; try discriminate. cbn [bind] in H.
  set (b8 := set_loaders b7 SnapLate BufLate StackLate) in H.
  destruct (load_std idData b8 l6) as [[b9 l9]| |] eqn:H9; try discriminate. cbn [bind] in H.
  destruct (load_customs p b9 l9) as [[b10 l10]| |] eqn:H10; try discriminate. cbn [bind] in H.
  destruct l10; [|discriminate]. assert (b10 = r) by congruence. subst b10. clear H.
  apply customs_fwd in H10 as (T & LT & IT & _ & DT). rewrite app_nil_r in LT. subst T.
  destruct DT as [(n1 & t1 & X)|DT]; [discriminate|].
  destruct D as [(n1 & t1 & ->)|D]; [cbn in H9; discriminate|].
  apply not_custom_data in H9; [|exact NC].
  assert (L9 : late b9) by (destruct H9 as [(-> & _)|(n1 & _ & ->)]; unfold late, b8; cbn; auto).
  apply run_late in DT as [GT ->]; [|exact L9|apply no_other].
  apply run_mid in D as (so2 & buf & st & GM & -> & D1 & D2 & D3); [|exact M5|apply no_other].
  assert (SM6 : stackMapped (buf_result (snap_result b so2) buf) = false) by (destruct so2, buf; exact SM).
  assert (FI6 : finished (buf_result (snap_result b so2) buf) = finished b) by (destruct so2, buf; reflexivity).
  apply finish_ok in H7; [|exact SM6].
  assert (FIN : finished b9 = S (finished b)).
  { destruct H9 as [(-> & _)|(n1 & _ & ->)]; unfold b8; cbn; (destruct st; [subst b7; cbn; rewrite FI6; reflexivity|destruct H7 as [_ ->]; cbn; rewrite FI6; reflexivity]). }
  destruct H9 as [(_ & -> & QQ)|(n1 & -> & _)].
  - assert (l6 = []) by (destruct QQ as [QQ|(i & n & t & -> & _)]; [exact QQ|discriminate IT]). subst l6.
    exists M, [], [], so2, buf, st. split; [exact LM|]. split; [|split; [exact FIN|auto; discriminate]]. unfold parts. repeat split; auto.
    all: try (now apply (D3 _ H)). intros ->. apply H7.
  - exists M, [Std 11 n1], l9, so2, buf, st. split; [exact LM|]. split; [|split; [exact FIN|auto; discriminate]]. unfold parts. repeat split; auto; try (now right; eauto).
    all: try (now apply (D3 _ H)). intros ->. apply H7.
Qed.

Lemma rest_bwd p b M D T so buf st : mid b -> stackMapped b = false -> parts p b M D T so buf st -> exists r, rest p b (M ++ D ++ T) = Ok r.
Proof.
  intros M5 SM (IM & DD & IT & GM & GT & C1 & C2 & C3 & C4). unfold rest.
  set (b6 := stack_result (buf_result (snap_result b so) buf) st).
  assert (R : run p b (gates M) = Ok b6) by (apply run_mid; [exact M5|apply no_other|]; exists so, buf, st; auto).
  assert (SM6 : stackMapped (buf_result (snap_result b so) buf) = false) by (destruct so, buf; exact SM).
  assert (F : exists b7, finishText p b6 = Ok b7).
  { destruct st as [n|] eqn:ST.
    - exists (with_stack (buf_result (snap_result b so) buf)). apply finish_ok; auto.
    - eexists. apply (finish_ok p (buf_result (snap_result b so) buf) None); auto. }
  destruct F as [b7 F].
  destruct DD as [->|[n ->]]; cbn [app] in *.
  - (* no data section: the trailing sections are read first *)
    assert (Q : load_customs p b (M ++ T) = Ok (b6, [])).
    { rewrite <- (app_nil_r (M ++ T)). apply customs_bwd; [unfold ids in *; rewrite flat_map_app, IM, IT; reflexivity|exact I|].
      unfold gates in *. rewrite flat_map_app, GT, app_nil_r. exact R. }
    rewrite Q. cbn [bind]. rewrite F. cbn [bind load_std load_customs]. eauto.
  - rewrite (customs_bwd p (Std 11 n :: T) b6 M b IM I R). cbn [bind]. rewrite F. cbn [bind]. unfold load_std. change (11 =? idData) with true. cbn [bind].
    set (b9 := set_std _ 11 n).
    assert (Q : load_customs p b9 T = Ok (b9, [])).
    { rewrite <- (app_nil_r T). apply customs_bwd; [exact IT|exact I|]. rewrite GT. reflexivity. }
    rewrite Q. cbn [bind]. eauto.
Qed.

Lemma verify_std p b i n : verifyBreakpoints p (set_std b i n) = do b' <- verifyBreakpoints p b; Ok (set_std b' i n).
Proof.
  unfold verifyBreakpoints. cbn [set_std snapshot breakpoints]. destruct (snapshot b) as [l0|]; [|reflexivity].
  destruct (existsb _ l0); [reflexivity|]. destruct (forallb _ _); reflexivity.
Qed.

Definition to_mid (b : build) : build := set_loaders b (snapLoader b) BufRead StackRead.

Lemma after_bind p b1 so xo b2 : early b1 -> snapshot b1 = so -> exportWrap b1 = xo -> bindFunctions p b1 = Ok b2 ->
  let b3 := codeConfig b2 in
  (forall b5, b5 = to_mid b3 \/ (exists n, b5 = to_mid (set_std b3 10 n)) ->
    mid b5 /\ snapshot b5 = so /\ stackMapped b5 = false /\ finished b5 = 0%nat /\
    entryIndex b5 = match xo with Some _ => false | None => match entryFound p with Some e => e | None => false end end) /\ snapshot b2 = so.
Proof.
  intros (E1 & E2 & E3 & E4 & E5 & E6 & E7 & E8) SN W H. apply bind_ok in H. cbv zeta.
  assert (P : snapshot b2 = so /\ snapLoader b2 = snapLoader b1 /\ stackMapped b2 = false /\ finished b2 = 0%nat /\
    entryIndex b2 = match xo with Some _ => false | None => match entryFound p with Some e => e | None => false end end).
  { destruct H as [(n & H1 & _ & _ & ->)|(H1 & e & H2 & ->)]; cbn.
    - assert (X : xo = Some n) by congruence. rewrite X. auto.
    - assert (X : xo = None) by congruence. rewrite X, H2. auto. }
  destruct P as (P1 & P2 & P3 & P4 & P5). split; [|exact P1].
  assert (C : snapLoader (codeConfig b2) = snapLoader b2 /\ snapshot (codeConfig b2) = so /\ stackMapped (codeConfig b2) = false /\
     finished (codeConfig b2) = 0%nat /\ entryIndex (codeConfig b2) = entryIndex b2).
  { unfold codeConfig. destruct (snapshot b2) eqn:SB; cbn; rewrite ?SB; auto. }
  destruct C as (C1 & C2 & C3 & C4 & C5). rewrite <- P2, <- C1, SN in E8. rewrite P5 in C5.
  intros b5 [->|[n ->]]; unfold mid; cbn [to_mid set_loaders set_std stackLoader bufLoader snapLoader snapshot stackMapped finished entryIndex];
    rewrite C2; repeat split; auto.
Qed.

Lemma above_weaken l : forall n m, m <= n -> above n l -> above m l.
Proof. destruct l; cbn; intros; auto. destruct H0. split; [lia|auto]. Qed.

Lemma build_fwd p l b : buildProgram p l = Ok b -> acceptable p l /\ finished b = 1%nat.
Proof.
  intros H. unfold buildProgram in H.
  destruct (load_initial p new_build l) as [[b1 l1]| |] eqn:H1; try discriminate. cbn [bind] in H.
  apply (init_fwd p (length l)) in H1; [|lia|unfold early; cbn; intuition].
  destruct H1 as (I & so1 & xo & -> & S & A & F & G & C1 & C2 & _ & E1 & SN1 & W1 & C7).
  cbn [new_build snapshot lastId exportWrap] in *.
  assert (SN1' : snapshot b1 = so1) by (rewrite SN1; destruct so1; reflexivity).
  assert (W1' : exportWrap b1 = xo) by (rewrite W1; destruct xo; reflexivity). clear SN1 W1.
  destruct (bindFunctions p b1) as [b2| |] eqn:H2; try discriminate. cbn [bind] in H.
  destruct (after_bind p b1 so1 xo b2 E1 SN1' W1' H2) as [AB SB2]. apply bind_ok in H2. rewrite W1' in H2.
  assert (K : exists code l2 b5, l1 = code ++ l2 /\ (code = [] \/ exists n, code = [Std 10 n]) /\
     (code = [] -> l2 = [] \/ exists i n t, l2 = Std i n :: t) /\
     (b5 = to_mid (codeConfig b2) \/ (exists n, b5 = to_mid (set_std (codeConfig b2) 10 n))) /\
     match so1 with Some bps => Forall (fun o => o < 2 ^ 32 /\ instruction p o = true) bps | None => True end /\ rest p b5 l2 = Ok b).
  { destruct (stop_code (codeConfig b2) l1 S) as [[LC LC'] | (n & t & -> & LC)]; rewrite LC in H; cbn [bind] in H.
    - destruct (verifyBreakpoints p (codeConfig b2)) as [b4| |] eqn:H4; try discriminate. apply verify_ok in H4 as [-> BP]. rewrite SB2 in BP.
      cbn [bind] in H. exists [], l1, (to_mid (codeConfig b2)). repeat split; auto.
      intros _. destruct LC' as [LC'|(i & n & t & LC' & _)]; [auto|right; eauto].
    - rewrite verify_std in H. destruct (verifyBreakpoints p (codeConfig b2)) as [b4| |] eqn:H4; try discriminate. apply verify_ok in H4 as [-> BP]. rewrite SB2 in BP.
      cbn [bind] in H. exists [Std 10 n], t, (to_mid (set_std (codeConfig b2) 10 n)). repeat split; auto; try discriminate; right; eauto. }
  destruct K as (code & l2 & b5 & -> & CO & KC & K5 & BP & R). destruct (AB b5 K5) as (M5 & SN5 & SM5 & F5 & EI5).
  destruct (rest_fwd p b5 l2 b M5 SM5 R) as (M & D & T & so2 & buf & st & -> & (IM & DD & IT & GM & GT & D1 & D2 & D3 & D4) & FIN & DT).
  rewrite F5 in FIN. split; [|exact FIN]. rewrite SN5 in D1, D2.
  assert (KM : code = [] -> M = []).
  { intros X. destruct (KC X) as [Y|(i & n & t & Y)]; [apply app_eq_nil in Y; tauto|]. destruct M as [|[i' n'|c'] M]; [reflexivity|discriminate IM|discriminate Y]. }
  unshelve eexists (Build_shape _ I code M D T _ _ _ _ _ _); auto.
  exists so1, so2, xo, buf, st. cbn [BuildSpec.initial BuildSpec.middle BuildSpec.tail].
  split; [exact G|]. split; [exact GM|]. split; [exact GT|].
  split; [destruct so1; [right|left; reflexivity]; destruct so2; [exfalso; assert (X := D1 ltac:(congruence)); discriminate|reflexivity]|].
  split; [intros X; destruct (C2 X); congruence|].
  split; [exact D2|].
  split.
  { intros n0 X. destruct (C7 n0 X) as (N2 & a & c & EQ). split; [exact N2|]. exists a, c. rewrite EQ. 
    assert (EX : exportSize b1 = n0). { rewrite X in H2. destruct H2 as [(m & Y & -> & _)|(Y & _)]; congruence. } rewrite EX. reflexivity. }
  split.
  { destruct xo as [n0|].
    - destruct H2 as [(m & _ & _ & Y & _)|(Y & _)]; [exact Y|discriminate].
    - destruct H2 as [(m & Y & _)|(_ & e & Y & _)]; [discriminate|]. exists e. split; [exact Y|]. intros X. destruct st as [n0|]; [|congruence].
      destruct (D3 n0 eq_refl) as [Z1 _]. rewrite EI5, Y in Z1. exact Z1. }
  split; [|exact BP].
  destruct st as [n0|]; [apply (D3 n0 eq_refl)|apply D4; reflexivity].
Qed.

Lemma stop_shape D T : (D = [] \/ exists n, D = [Std 11 n]) -> (D = [] -> T = []) -> stop (D ++ T).
Proof. intros [->|[n ->]] H; [rewrite H by reflexivity; exact I|]. cbn. lia. Qed.

Lemma build_bwd p l : acceptable p l -> exists b, buildProgram p l = Ok b.
Proof.
  intros ([I C M D T -> [A F] CO [IM CM] DA [IT DT]] & so1 & so2 & xo & buf & st & G & GM & GT & ONE & WR & AF & EX & EN & ST & BP).
  cbn [BuildSpec.initial BuildSpec.middle BuildSpec.tail] in *.
  assert (S : stop (C ++ M ++ D ++ T)).
  { destruct CO as [->|[n ->]]; [|cbn; lia]. rewrite CM by reflexivity. cbn [app]. destruct DA as [->|[n ->]]; [rewrite DT by reflexivity; exact Logic.I|cbn; lia]. }
  set (m := match xo with Some n => n | None => 0 end).
  assert (E0 : early new_build) by (unfold early; cbn; intuition).
  destruct (init_bwd p m (length I) I new_build (C ++ M ++ D ++ T) so1 xo) as (b1 & L1 & E1 & SN1 & W1 & _ & X1); auto; try lia.
  { intros n X. subst xo. exact (EX n eq_refl). }
  cbn [new_build snapshot exportWrap] in SN1, W1.
  assert (SN1' : snapshot b1 = so1) by (rewrite SN1; destruct so1; reflexivity).
  assert (W1' : exportWrap b1 = xo) by (rewrite W1; destruct xo; reflexivity). clear SN1 W1.
  assert (B2 : exists b2, bindFunctions p b1 = Ok b2).
  { destruct xo as [n|].
    - exists b1. apply bind_ok. left. exists n. repeat split; auto. apply X1. congruence.
    - destruct EN as (e & EN & _). exists (set_entry b1 e). apply bind_ok. right. split; auto. exists e. auto. }
  destruct B2 as [b2 H2]. destruct (after_bind p b1 so1 xo b2 E1 SN1' W1' H2) as [AB SB2].
  assert (V : verifyBreakpoints p (codeConfig b2) = Ok (codeConfig b2)) by (apply verify_ok; rewrite SB2; auto).
  unfold buildProgram. rewrite L1. cbn [bind]. rewrite H2. cbn [bind].
  assert (PT : forall b5, (b5 = to_mid (codeConfig b2) \/ (exists n, b5 = to_mid (set_std (codeConfig b2) 10 n))) -> exists r, rest p b5 (M ++ D ++ T) = Ok r).
  { intros b5 K5. destruct (AB b5 K5) as (M5 & SN5 & SM5 & F5 & EI5). apply (rest_bwd p b5 M D T so2 buf st M5 SM5).
    unfold parts. rewrite SN5, EI5. split; [exact IM|]. split; [exact DA|]. split; [exact IT|]. split; [exact GM|]. split; [exact GT|].
    split; [intros X; destruct ONE; congruence|]. split; [exact AF|].
    split; [|intros ->; exact ST]. intros n X. split; [|rewrite X in ST; exact ST].
    destruct xo; [reflexivity|]. destruct EN as (e & -> & EN). apply EN. congruence. }
  destruct CO as [->|[n ->]].
  - rewrite CM in * by reflexivity. cbn [app] in *.
    assert (Q : load_std idCode (codeConfig b2) (D ++ T) = Ok (codeConfig b2, D ++ T)) by (destruct DA as [->|[n ->]]; [rewrite DT by reflexivity; reflexivity|reflexivity]).
    rewrite Q. cbn [bind]. rewrite V. cbn [bind]. destruct (PT (to_mid (codeConfig b2))) as [r R]; auto. exists r. exact R.
  - assert (Q : load_std idCode (codeConfig b2) ([Std 10 n] ++ M ++ D ++ T) = Ok (set_std (codeConfig b2) 10 n, M ++ D ++ T)) by reflexivity.
    rewrite Q. cbn [bind]. rewrite verify_std, V. cbn [bind]. destruct (PT (to_mid (set_std (codeConfig b2) 10 n))) as [r R]; [right; eauto|]. exists r. exact R.
Qed.

(* ---- consequences ---- *)
Lemma custom_no_panic p b c r : load_custom p b c r <> Panic.
Proof.
  destruct c as [rd bps|n|rd|n im|]; cbn [load_custom]; try discriminate.
  - destruct (snapLoader b); try discriminate. destruct rd; discriminate.
  - destruct (snapshot b); [|discriminate]. destruct (n <? 2); [discriminate|]. destruct r as [|[id m|c] t]; try discriminate. destruct (id =? idExport); discriminate.
  - destruct (bufLoader b); try discriminate. cbn [set_loaders snapshot]. destruct (snapshot b); [|discriminate]. destruct rd; discriminate.
  - destruct (stackLoader b); try discriminate. cbn [set_loaders snapshot entryIndex]. destruct (snapshot b); [|discriminate]. destruct (entryIndex b); [discriminate|].
    destruct (_ >? _); [discriminate|]. unfold finishImageText. destruct (_ <? _); [discriminate|]. cbn [bind]. destruct im; discriminate.
Qed.

Lemma initial_no_panic p : forall l b, load_initial p b l <> Panic.
Proof.
  induction l as [|[id n|c] t IH]; intros b; cbn [load_initial]; try discriminate.
  - destruct (idCode <=? id); [discriminate|]. destruct (id <=? lastId b); [discriminate|apply IH].
  - destruct (load_custom p b c t) eqn:E; cbn [bind]; [apply IH|discriminate|now apply custom_no_panic in E].
Qed.

Lemma customs_no_panic p : forall l b, load_customs p b l <> Panic.
Proof.
  induction l as [|[id n|c] t IH]; intros b; cbn [load_customs]; try discriminate.
  destruct (load_custom p b c t) eqn:E; cbn [bind]; [apply IH|discriminate|now apply custom_no_panic in E].
Qed.

Lemma std_no_panic i b l : load_std i b l <> Panic.
Proof. destruct l as [|[j n|c] t]; cbn; try discriminate. destruct (j =? i); [discriminate|]. destruct (j <? i); discriminate. Qed.

Lemma build_no_panic p l : buildProgram p l <> Panic.
Proof.
  unfold buildProgram. destruct (load_initial p new_build l) as [[b1 l1]| |] eqn:H1; cbn [bind]; [|discriminate|now apply initial_no_panic in H1].
  destruct (bindFunctions p b1) as [b2| |] eqn:H2; cbn [bind]; [|discriminate|].
  2:{ unfold bindFunctions in H2. destruct (exportWrap b1); [destruct (negb _); [discriminate|]; destruct (entryName p); discriminate|destruct (entryFound p); discriminate]. }
  destruct (load_std idCode (codeConfig b2) l1) as [[b3 l3]| |] eqn:H3; cbn [bind]; [|discriminate|now apply std_no_panic in H3].
  destruct (verifyBreakpoints p b3) as [b4| |] eqn:H4; cbn [bind]; [|discriminate|].
  2:{ unfold verifyBreakpoints in H4. destruct (snapshot b3); [|discriminate]. destruct (existsb _ _); [discriminate|]. destruct (forallb _ _); discriminate. }
  match goal with |- context [load_customs p ?x l3] => destruct (load_customs p x l3) as [[b5 l5]| |] eqn:H5 end; cbn [bind]; [|discriminate|now apply customs_no_panic in H5].
  destruct (finishText p b5) as [b6| |] eqn:H6; cbn [bind]; [|discriminate|].
  2:{ unfold finishText, finishImageText in H6. destruct (stackMapped b5); [discriminate|]. destruct (_ <? _); discriminate. }
  match goal with |- context [load_std idData ?x l5] => destruct (load_std idData x l5) as [[b7 l7]| |] eqn:H7 end; cbn [bind]; [|discriminate|now apply std_no_panic in H7].
  destruct (load_customs p b7 l7) as [[b8 l8]| |] eqn:H8; cbn [bind]; [|discriminate|now apply customs_no_panic in H8].
  destruct l8; discriminate.
Qed.

Lemma ids_app a b : ids (a ++ b) = ids a ++ ids b.
Proof. apply flat_map_app. Qed.

Lemma early_breakpoints p l a r bps b :
  l = a ++ Custom (CSnapshot true bps) :: r -> In 10 (ids r) -> buildProgram p l = Ok b ->
  Forall (fun o => o < 2 ^ 32 /\ instruction p o = true) bps.
Proof.
  intros EQ I10 H. apply build_fwd in H as [([I C M D T SH [A F] CO [IM CM] DA [IT DT]] & so1 & so2 & xo & buf & st & G & GM & GT & ONE & WR & AF & EX & EN & ST & BP) _].
  cbn [BuildSpec.initial BuildSpec.middle BuildSpec.tail] in *.
  assert (Q : exists r', I = a ++ Custom (CSnapshot true bps) :: r').
  { rewrite EQ in SH. clear - SH I10 F CO IM CM DA IT.
    assert (NT : ~ In 10 (ids (M ++ D ++ T))).
    { rewrite !ids_app, IM, IT, app_nil_r. cbn [app]. destruct DA as [->|[n ->]]; cbn; lia. }
    revert a SH. induction I as [|h I IH]; intros a SH; cbn [app] in SH.
    - exfalso. apply NT. destruct CO as [->|[n ->]]; cbn [app] in SH.
      + rewrite <- SH, ids_app. apply in_or_app. right. exact I10.
      + destruct a as [|h a]; [discriminate|]. cbn in SH. assert (SH' : M ++ D ++ T = a ++ Custom (CSnapshot true bps) :: r) by congruence.
        rewrite SH', ids_app. apply in_or_app. right. exact I10.
    - destruct a as [|h' a]; cbn [app] in SH.
      + exists I. cbn. f_equal. congruence.
      + destruct (IH ltac:(destruct h; [inversion F; assumption|exact F]) a) as [r' ->]; [congruence|]. exists r'. cbn. f_equal. congruence. }
  destruct Q as [r' ->]. unfold gates in G. rewrite flat_map_app in G. cbn [flat_map] in G.
  assert (IN : In (CSnapshot true bps) (opt (option_map (CSnapshot true) so1) ++ opt (option_map CExport xo))).
  { rewrite <- G. apply in_or_app. right. left. reflexivity. }
  apply in_app_or in IN as [IN|IN]; [|destruct xo; cbn in IN; [destruct IN as [IN|IN]; [discriminate|destruct IN]|destruct IN]].
  destruct so1 as [x|]; cbn in IN; [|destruct IN]. destruct IN as [IN|[]]. assert (x = bps) by congruence. subst x. exact BP.
Qed.
