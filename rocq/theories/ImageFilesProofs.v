(* ImageFilesProofs.v: lemmas about image files. *)
From Verif Require Import ImageFilesSpec.
Local Open Scope Z_scope.

Lemma bytesFrom_length f off n : length (bytesFrom f off n) = n.
Proof. revert off; induction n; simpl; auto. Qed.
Lemma bytesFrom_nth f off n k : (k < n)%nat -> nth k (bytesFrom f off n) 0 = f (off + Z.of_nat k).
Proof.
  revert off k; induction n; intros off k H; [lia|]. destruct k; simpl bytesFrom; simpl nth.
  - f_equal. lia.
  - rewrite IHn by lia. f_equal. lia.
Qed.
Lemma bytesFrom_ext f g a b n : (forall k, 0 <= k < Z.of_nat n -> f (a + k) = g (b + k)) -> bytesFrom f a n = bytesFrom g b n.
Proof.
  revert a b; induction n; intros a b H; simpl; [reflexivity|]. f_equal.
  - specialize (H 0). rewrite !Z.add_0_r in H. apply H. lia.
  - apply IHn. intros k Hk. specialize (H (k + 1)). replace (a + (k + 1)) with (a + 1 + k) in H by lia.
    replace (b + (k + 1)) with (b + 1 + k) in H by lia. apply H. lia.
Qed.
Lemma bytesAt_ext f g a b n : (forall k, 0 <= k < n -> f (a + k) = g (b + k)) -> bytesAt f a n = bytesAt g b n.
Proof. intros H. apply bytesFrom_ext. intros k Hk. apply H. lia. Qed.
Lemma bytesAt_list f a n l : n = len l -> (forall k, 0 <= k < n -> f (a + k) = nth (Z.to_nat k) l 0) -> bytesAt f a n = l.
Proof.
  intros -> H. unfold bytesAt, len in *. rewrite Nat2Z.id. apply (nth_ext _ _ 0 0); rewrite bytesFrom_length; [reflexivity|].
  intros k Hk. rewrite bytesFrom_nth by assumption. rewrite H by lia. f_equal. lia.
Qed.
Lemma len_nonneg l : 0 <= len l.
Proof. unfold len. lia. Qed.
Lemma len_app a b : len (a ++ b) = len a + len b.
Proof. unfold len. rewrite app_length. lia. Qed.

Lemma copyRange_in src o1 dst o2 n x : o2 <= x < o2 + n -> copyRange src o1 dst o2 n x = src (o1 + (x - o2)).
Proof. intros H. unfold copyRange. replace (o2 <=? x) with true by lia. replace (x <? o2 + n) with true by lia. reflexivity. Qed.
Lemma copyRange_out src o1 dst o2 n x : x < o2 \/ o2 + n <= x -> copyRange src o1 dst o2 n x = dst x.
Proof.
  intros H. unfold copyRange. destruct (o2 <=? x) eqn:A; [|reflexivity]. destruct (x <? o2 + n) eqn:B; [|reflexivity]. lia.
Qed.
Lemma writeAt_in f o b x : o <= x < o + len b -> writeAt f o b x = nth (Z.to_nat (x - o)) b 0.
Proof. intros H. unfold writeAt, len in *. replace (o <=? x) with true by lia. replace (x <? o + Z.of_nat (length b)) with true by lia. reflexivity. Qed.
Lemma writeAt_out f o b x : x < o \/ o + len b <= x -> writeAt f o b x = f x.
Proof.
  intros H. unfold writeAt, len in *. destruct (o <=? x) eqn:A; [|reflexivity]. destruct (x <? o + Z.of_nat (length b)) eqn:B; [|reflexivity]. lia.
Qed.

Lemma alignPage_bounds n : n <= alignPage n < n + 4096.
Proof. unfold alignPage. pose proof (Z.div_mod (n + 4095) 4096). pose proof (Z.mod_pos_bound (n + 4095) 4096). lia. Qed.
Lemma alignPage_mod n : alignPage n mod 4096 = 0.
Proof. unfold alignPage. apply Z.mod_mul. lia. Qed.
Lemma alignPage_le a b : a <= b -> alignPage a <= alignPage b.
Proof. intros H. unfold alignPage. apply Z.mul_le_mono_nonneg_r; [lia|]. apply Z.div_le_mono; lia. Qed.
Lemma alignPage_id n : n mod 4096 = 0 -> alignPage n = n.
Proof.
  intros H. unfold alignPage. rewrite (Z.div_mod n 4096) at 1 by lia. rewrite H. rewrite Z.add_0_r.
  rewrite (Z.mul_comm 4096), Z.div_add_l by lia. rewrite (Z.div_small 4095) by lia. pose proof (Z.div_mod n 4096). lia.
Qed.
Lemma align8_bounds n : n <= align8 n < n + 8.
Proof. unfold align8. pose proof (Z.div_mod (n + 7) 8). pose proof (Z.mod_pos_bound (n + 7) 8). lia. Qed.
Lemma alignPage_add a b : a mod 4096 = 0 -> alignPage (a + b) = a + alignPage b.
Proof.
  intros H. unfold alignPage. pose proof (Z.div_mod a 4096). replace (a + b + 4095) with (a / 4096 * 4096 + (b + 4095)) by lia.
  rewrite Z.div_add_l by lia. lia.
Qed.
Lemma memory_aligned m : m mod 65536 = 0 -> m mod 4096 = 0.
Proof. intros H. pose proof (Z.div_mod m 65536). replace m with (m / 65536 * 16 * 4096) by lia. apply Z.mod_mul. lia. Qed.
Lemma u32_id n : 0 <= n < 2 ^ 32 -> u32 n = n.
Proof. intros H. unfold u32. apply Z.mod_small. exact H. Qed.

Lemma stateOf_ext f g addr G G' usage gs ms : 0 <= gs -> 0 <= ms ->
  (forall k, - usage <= k < 0 -> f (G + k) = g (G' + k)) ->
  (forall k, alignPage gs - gs <= k < alignPage gs + ms -> f (G + k) = g (G' + k)) ->
  stateOf f addr G usage gs ms = stateOf g addr G' usage gs ms.
Proof.
  intros P Q H1 H2. unfold stateOf. f_equal; apply bytesAt_ext; intros k Hk.
  - replace (G - usage + k) with (G + (k - usage)) by lia. replace (G' - usage + k) with (G' + (k - usage)) by lia. apply H1; lia.
  - replace (G + alignPage gs - gs + k) with (G + (alignPage gs - gs + k)) by lia.
    replace (G' + alignPage gs - gs + k) with (G' + (alignPage gs - gs + k)) by lia. apply H2; lia.
  - rewrite <- !Z.add_assoc. apply H2; lia.
Qed.
Lemma nth_repeat0 n k : nth k (repeat 0 n) 0 = 0.
Proof. revert k; induction n; intros [|k]; simpl; auto. Qed.
Lemma nth_firstn_lt (l : list Z) n k : (k < n)%nat -> nth k (firstn n l) 0 = nth k l 0.
Proof. revert n k; induction l; intros [|n] [|k] H; simpl; try lia; auto. apply IHl. lia. Qed.
Lemma nth_skipn (l : list Z) n k : nth k (skipn n l) 0 = nth (n + k)%nat l 0.
Proof. revert n k; induction l; intros [|n] k; simpl; auto; destruct k; auto. Qed.
Lemma nth_pad (l : list Z) n k : nth k (l ++ repeat 0 n) 0 = nth k l 0.
Proof.
  destruct (Nat.lt_ge_cases k (length l)).
  - rewrite app_nth1; auto.
  - rewrite app_nth2 by auto. rewrite nth_repeat0. symmetry. apply nth_overflow. lia.
Qed.

Lemma stateOf_source s f G : fits s ->
  (forall k, 0 <= k < len (s_stack s) -> f (G - len (s_stack s) + k) = nth (Z.to_nat k) (s_stack s) 0) ->
  (forall k, 0 <= k < alignPage (s_globals s) + s_memory s -> f (G + k) = nth (Z.to_nat k) (s_data s) 0) ->
  stateOf f (s_addr s) G (len (s_stack s)) (s_globals s) (s_memory s) = sourceState s.
Proof.
  intros F H1 H2. destruct F as [_ _ Fg Fm Fd _ _ _ _]. pose proof (alignPage_bounds (s_globals s)) as A.
  assert (L : length (s_data s ++ repeat 0 (Z.to_nat (alignPage (s_globals s) + s_memory s - len (s_data s)))) = Z.to_nat (alignPage (s_globals s) + s_memory s)).
  { rewrite app_length, repeat_length. unfold len in *. lia. }
  unfold stateOf, sourceState. f_equal.
  - apply bytesAt_list; [reflexivity|exact H1].
  - apply bytesAt_list.
    + unfold len in *. rewrite firstn_length, skipn_length, L. lia.
    + intros k Hk. rewrite nth_firstn_lt by lia. rewrite nth_skipn, nth_pad.
      replace (G + alignPage (s_globals s) - s_globals s + k) with (G + (alignPage (s_globals s) - s_globals s + k)) by lia.
      rewrite H2 by lia. f_equal. lia.
  - apply bytesAt_list.
    + unfold len in *. rewrite skipn_length, L. lia.
    + intros k Hk. rewrite nth_skipn, nth_pad. rewrite <- Z.add_assoc. rewrite H2 by lia. f_equal. lia.
Qed.

Lemma withState_stack f G s k : 0 <= k < len (s_stack s) -> withState f G s (G - len (s_stack s) + k) = nth (Z.to_nat k) (s_stack s) 0.
Proof. intros H. unfold withState. rewrite writeAt_out by lia. rewrite writeAt_in by lia. f_equal. lia. Qed.
Lemma withState_data f G s k : 0 <= k -> (len (s_data s) <= k -> f (G + k) = 0) -> withState f G s (G + k) = nth (Z.to_nat k) (s_data s) 0.
Proof.
  intros H H0. unfold withState. destruct (Z.lt_ge_cases k (len (s_data s))).
  - rewrite writeAt_in by lia. f_equal. lia.
  - rewrite writeAt_out by lia. rewrite writeAt_out by lia. rewrite H0 by lia. symmetry. apply nth_overflow. unfold len in *. lia.
Qed.
Lemma withState_out f G s x : x < G - len (s_stack s) \/ G + len (s_data s) <= x -> withState f G s x = f x.
Proof.
  intros H. pose proof (len_nonneg (s_stack s)). pose proof (len_nonneg (s_data s)).
  unfold withState. rewrite writeAt_out by lia. apply writeAt_out. lia.
Qed.
Lemma programFile_zero s x : len (s_text s) <= x < progModuleOffset -> programFile s x = 0.
Proof.
  intros H. unfold programFile. pose proof (align8_bounds (len (s_module s))). pose proof (len_nonneg (s_module s)).
  rewrite writeAt_out by lia. rewrite writeAt_out by lia. rewrite writeAt_out; [reflexivity|]. unfold progTextOffset. lia.
Qed.

(* What the rest of the file contains *)
Lemma file_text s f : fits s -> (forall x, 0 <= x < 2 ^ 31 -> f x = programFile s x) ->
  bytesAt f progTextOffset (len (s_text s)) = s_text s.
Proof.
  intros F H. destruct F as [Ft _ _ _ _ _ _ _ _]. apply bytesAt_list; [reflexivity|]. intros k Hk. unfold progTextOffset. rewrite H by lia.
  pose proof (align8_bounds (len (s_module s))). pose proof (len_nonneg (s_module s)). unfold progModuleOffset in *.
  unfold programFile, progModuleOffset, progTextOffset. rewrite writeAt_out by lia. rewrite writeAt_out by lia. rewrite writeAt_in by lia. f_equal. lia.
Qed.
Lemma file_module s f : (forall x, progModuleOffset <= x -> f x = programFile s x) ->
  bytesAt f progModuleOffset (len (s_module s)) = s_module s.
Proof.
  intros H. apply bytesAt_list; [reflexivity|]. intros k Hk. rewrite H by lia.
  pose proof (align8_bounds (len (s_module s))). unfold programFile. rewrite writeAt_out by lia. rewrite writeAt_in by lia. f_equal. lia.
Qed.
Lemma file_sites s f : (forall x, progModuleOffset <= x -> f x = programFile s x) ->
  bytesAt f (progModuleOffset + align8 (len (s_module s))) (len (s_sites s)) = s_sites s.
Proof.
  intros H. apply bytesAt_list; [reflexivity|]. intros k Hk. pose proof (align8_bounds (len (s_module s))). pose proof (len_nonneg (s_module s)).
  rewrite H by lia. pose proof (len_nonneg (s_addrs s)).
  unfold programFile. rewrite writeAt_in by (rewrite len_app; lia). rewrite app_nth1 by (unfold len in *; lia). f_equal. lia.
Qed.
Lemma file_addrs s f : (forall x, progModuleOffset <= x -> f x = programFile s x) ->
  bytesAt f (progModuleOffset + align8 (len (s_module s)) + len (s_sites s)) (len (s_addrs s)) = s_addrs s.
Proof.
  intros H. apply bytesAt_list; [reflexivity|]. intros k Hk. pose proof (align8_bounds (len (s_module s))). pose proof (len_nonneg (s_module s)).
  pose proof (len_nonneg (s_sites s)). rewrite H by lia.
  unfold programFile. rewrite writeAt_in by (rewrite len_app; lia). rewrite app_nth2 by (unfold len in *; lia). f_equal. unfold len in *. lia.
Qed.

Lemma ok_inj {A} (a b : A) : Ok a = Ok b -> a = b.
Proof. intros H. congruence. Qed.
Lemma pair_inj {A B} (a c : A) (b d : B) : (a, b) = (c, d) -> a = c /\ b = d.
Proof. intros H. split; congruence. Qed.
Lemma data_aligned s : fits s -> alignPage (len (s_data s)) <= alignPage (s_globals s) + s_memory s.
Proof.
  intros [_ _ Fg Fm Fd _ _ _ Fp].
  rewrite <- (alignPage_id (alignPage (s_globals s) + s_memory s)); [apply alignPage_le; lia|].
  rewrite Z.add_mod, alignPage_mod, (memory_aligned _ Fp) by lia. reflexivity.
Qed.
Lemma stack_aligned n : n <= 2 ^ 31 - 2 ^ 16 -> alignPage n <= 2 ^ 31 - 2 ^ 16.
Proof. intros H. rewrite <- (alignPage_id (2 ^ 31 - 2 ^ 16)) by reflexivity. apply alignPage_le. exact H. Qed.

Lemma built_gen s f : fits s ->
  (forall x, 0 <= x < 2 ^ 31 -> f x = programFile s x) ->
  (forall x, progModuleOffset <= x -> f x = programFile s x) ->
  (forall k, 0 <= k < len (s_stack s) -> f (progGlobalsOffset - len (s_stack s) + k) = nth (Z.to_nat k) (s_stack s) 0) ->
  (forall k, 0 <= k < alignPage (s_globals s) + s_memory s -> f (progGlobalsOffset + k) = nth (Z.to_nat k) (s_data s) 0) ->
  let p := Program (programManifest s) f in
  programState p = sourceState s /\ programText p = s_text s /\ programModule p = s_module s /\ programSites p = s_sites s /\
  programAddrs p = s_addrs s /\ goodProgram p.
Proof.
  intros F H1 H2 H3 H4 p. pose proof (alignPage_bounds (s_globals s)) as A.
  pose proof (len_nonneg (s_text s)). pose proof (len_nonneg (s_stack s)). pose proof (len_nonneg (s_module s)).
  pose proof (len_nonneg (s_sites s)). pose proof (len_nonneg (s_addrs s)).
  pose proof F as [Ft Fs Fg Fm Fd Fo Fa Fr Fp].
  assert (U : pm p = PMan (s_addr s) (len (s_text s)) (len (s_stack s)) (s_globals s) (s_memory s) (len (s_data s) - alignPage (s_globals s)) (len (s_module s)) (len (s_sites s)) (len (s_addrs s))).
  { simpl. unfold programManifest. rewrite !u32_id by lia. reflexivity. }
  unfold programState, programText, programModule, programSites, programAddrs, goodProgram. rewrite U. cbn [TextAddr TextSize StackUsage GlobalsSize MemorySize MemoryDataSize ModuleSize CallSitesSize FuncAddrsSize pf p].
  repeat match goal with |- _ /\ _ => split end.
  - apply stateOf_source; assumption.
  - apply file_text; assumption.
  - apply file_module; assumption.
  - apply file_sites; assumption.
  - apply file_addrs; assumption.
  - unfold goodMan. repeat split; try lia. intros E. apply Fr. destruct (s_stack s); [reflexivity|discriminate].
  - lia.
  - lia.
  - intros x Hx. pose proof (alignPage_bounds (len (s_data s) - alignPage (s_globals s))). rewrite <- Z.add_assoc. rewrite H4 by lia. apply nth_overflow. unfold len in *. lia.
Qed.

Lemma buildProgram_built stackSize s p : fits s -> buildProgram stackSize s = Ok p ->
  programState p = sourceState s /\ programText p = s_text s /\ programModule p = s_module s /\ programSites p = s_sites s /\
  programAddrs p = s_addrs s /\ goodProgram p.
Proof.
  intros F E. unfold buildProgram in E. destruct (stackFits stackSize s); [|discriminate]. apply ok_inj in E. subst p.
  pose proof F as [Ft Fs Fg Fm Fd Fo Fa Fr Fp]. pose proof (len_nonneg (s_stack s)). pose proof (len_nonneg (s_data s)).
  pose proof (alignPage_bounds (s_globals s)) as A.
  apply built_gen; [assumption| | | |].
  - intros x Hx. apply withState_out. unfold progGlobalsOffset. lia.
  - intros x Hx. apply withState_out. unfold progModuleOffset, progGlobalsOffset in *. lia.
  - intros k Hk. apply withState_stack. assumption.
  - intros k Hk. apply withState_data; [lia|]. intros _. apply programFile_zero. unfold progModuleOffset, progGlobalsOffset in *. lia.
Qed.

Lemma buildBoth_built stackSize s p i : fits s -> 0 <= stackSize <= 2 ^ 31 -> buildBoth stackSize s = Ok (p, i) ->
  (programState p = sourceState s /\ programText p = s_text s /\ programModule p = s_module s /\ programSites p = s_sites s /\
  programAddrs p = s_addrs s /\ goodProgram p) /\ instanceState i = sourceState s /\ goodInstance i /\
  (forall x, 0 <= x < StackUsageOffset -> inf i x = 0).
Proof.
  intros F B E. unfold buildBoth in E. destruct (stackFits stackSize s) eqn:SF; [|discriminate]. apply ok_inj, pair_inj in E. destruct E as [<- <-].
  unfold stackFits in SF. assert (SF' : StackUsageOffset + len (s_stack s) <= stackSize) by lia.
  pose proof F as [Ft Fs Fg Fm Fd Fo Fa Fr Fp]. pose proof (len_nonneg (s_stack s)). pose proof (len_nonneg (s_data s)).
  pose proof (alignPage_bounds (s_globals s)) as A. pose proof (alignPage_bounds (len (s_stack s))) as A2.
  pose proof (alignPage_bounds (len (s_data s))) as A3. pose proof (data_aligned s F) as A4. pose proof (stack_aligned _ Fs) as A5.
  pose proof (alignPage_bounds stackSize) as A6.
  assert (A7 : alignPage stackSize <= 2 ^ 31). { rewrite <- (alignPage_id (2 ^ 31)) by reflexivity. apply alignPage_le. lia. }
  assert (D : forall k, 0 <= k -> withState fresh (alignPage stackSize) s (alignPage stackSize + k) = nth (Z.to_nat k) (s_data s) 0).
  { intros k Hk. apply withState_data; [assumption|]. reflexivity. }
  split; [|split; [|split]].
  - apply built_gen; [assumption| | | |].
    + intros x Hx. apply copyRange_out. unfold progGlobalsOffset. lia.
    + intros x Hx. apply copyRange_out. unfold progModuleOffset, progGlobalsOffset in *. lia.
    + intros k Hk. rewrite copyRange_in by lia. rewrite <- (withState_stack fresh (alignPage stackSize) s k Hk). f_equal. lia.
    + intros k Hk. destruct (Z.lt_ge_cases k (alignPage (len (s_data s)))).
      * rewrite copyRange_in by lia. rewrite <- D by lia. f_equal. lia.
      * rewrite copyRange_out by lia. rewrite programFile_zero by (unfold progModuleOffset, progGlobalsOffset in *; lia).
        symmetry. apply nth_overflow. unfold len in *. lia.
  - unfold instanceState. cbn [inf im iTextAddr iStackSize iStackUsage iGlobalsSize iMemorySize]. rewrite !u32_id by lia.
    apply stateOf_source; [assumption| |].
    + intros k Hk. apply withState_stack. assumption.
    + intros k Hk. apply D. lia.
  - unfold goodInstance. cbn [inf im iTextAddr iStackSize iStackUsage iGlobalsSize iMemorySize]. rewrite !u32_id by lia.
    unfold goodMan. repeat split; try lia; try apply alignPage_mod. intros E. apply Fr. destruct (s_stack s); [reflexivity|discriminate].
  - intros x Hx. cbn [inf]. rewrite withState_out by lia. reflexivity.
Qed.

Lemma new_spec p n i : goodProgram p -> 0 <= n <= 2 ^ 31 -> NewInstance p n = Ok i ->
  instanceState i = programState p /\ goodInstance i /\ (forall x, 0 <= x < StackVarsSize -> inf i x = 0).
Proof.
  intros G B E. unfold NewInstance in E.
  destruct G as ((Gu & Gg & Gm & Gs & Gp & Ga) & Gd & Gz).
  pose proof (alignPage_bounds n) as A1. pose proof (alignPage_bounds (StackUsage (pm p))) as A2. pose proof (alignPage_bounds (GlobalsSize (pm p))) as A3.
  pose proof (alignPage_bounds (MemoryDataSize (pm p))) as A4.
  assert (A7 : alignPage n <= 2 ^ 31). { rewrite <- (alignPage_id (2 ^ 31)) by reflexivity. apply alignPage_le. lia. }
  destruct (alignPage n - StackUsageOffset <? StackUsage (pm p)) eqn:L; [discriminate|]. apply ok_inj in E. subst i.
  unfold StackUsageOffset in *.
  assert (AD : (if StackUsage (pm p) =? 0 then 0 else TextAddr (pm p)) = TextAddr (pm p)).
  { destruct (StackUsage (pm p) =? 0) eqn:Z; [|reflexivity]. symmetry. apply Ga. lia. }
  rewrite AD. split; [|split].
  - unfold instanceState, programState. cbn [inf im iTextAddr iStackSize iStackUsage iGlobalsSize iMemorySize]. rewrite u32_id by lia.
    apply stateOf_ext; [lia|lia| |]; intros k Hk.
    + rewrite copyRange_in by lia. f_equal. lia.
    + destruct (Z.lt_ge_cases k (alignPage (GlobalsSize (pm p)) + alignPage (MemoryDataSize (pm p)))).
      * rewrite copyRange_in by lia. f_equal. lia.
      * rewrite copyRange_out by lia. unfold fresh.
        replace (progGlobalsOffset + k) with (progGlobalsOffset + alignPage (GlobalsSize (pm p)) + (k - alignPage (GlobalsSize (pm p)))) by lia.
        symmetry. apply Gz. lia.
  - unfold goodInstance, goodMan. cbn [inf im iTextAddr iStackSize iStackUsage iGlobalsSize iMemorySize]. rewrite u32_id by lia.
    repeat split; try lia; try apply alignPage_mod; try assumption. unfold StackUsageOffset. lia.
  - intros x Hx. cbn [inf]. unfold StackVarsSize in *. rewrite copyRange_out by lia. reflexivity.
Qed.

Lemma copyInstance_spec m src dst : goodMan (iTextAddr m) (iStackUsage m) (iGlobalsSize m) (iMemorySize m) ->
  StackUsageOffset + iStackUsage m <= iStackSize m <= 2 ^ 31 ->
  instanceState (Instance m (copyInstance m src dst)) = instanceState (Instance m src).
Proof.
  intros (Gu & Gg & Gm & Gs & Gp & Ga) H. unfold StackUsageOffset in *. pose proof (alignPage_bounds (iGlobalsSize m)) as A.
  unfold instanceState. cbn [inf im]. apply stateOf_ext; [lia|lia| |]; intros k Hk; unfold copyInstance; rewrite !u32_id by lia.
  - rewrite copyRange_out by lia. rewrite copyRange_in by lia. f_equal. lia.
  - rewrite copyRange_in by lia. f_equal. lia.
Qed.
Lemma storeLoad_spec i : goodInstance i -> instanceState (storeLoad i) = instanceState i /\ goodInstance (storeLoad i).
Proof.
  intros (G & Gp & Gs). split; [|split; [exact G|split; [exact Gp|exact Gs]]].
  unfold storeLoad. rewrite !copyInstance_spec by assumption. destruct i; reflexivity.
Qed.

Lemma snapshot_spec old i module map : goodInstance i -> GlobalsSize (pm old) = iGlobalsSize (im i) -> len module + len map + 8 <= 2 ^ 33 -> iStackUsage (im i) <> 0 -> 0 <= TextSize (pm old) <= 2 ^ 31 ->
  let p := snapshotAreas old i module map true in
  programState p = instanceState i /\ goodProgram p /\ programText p = programText old /\ programModule p = module.
Proof.
  intros ((Gu & Gg & Gm & Gs & Gp & Ga) & Gpg & Gst) EG LM NZ T p. unfold StackUsageOffset in *.
  pose proof (alignPage_bounds (iGlobalsSize (im i))) as A1. pose proof (alignPage_bounds (iStackUsage (im i))) as A2.
  pose proof (stack_aligned _ (proj2 Gu)) as A3. pose proof (align8_bounds (len module)) as A4.
  assert (A7 : alignPage (TextSize (pm old)) <= 2 ^ 31). { rewrite <- (alignPage_id (2 ^ 31)) by reflexivity. apply alignPage_le. lia. }
  pose proof (alignPage_bounds (TextSize (pm old))) as A8. pose proof (len_nonneg module).  pose proof (len_nonneg map).
  unfold p, snapshotAreas. replace (iStackUsage (im i) =? 0) with false by lia. cbn [negb andb].
  unfold programState, programText, programModule, instanceState, goodProgram, goodMan. cbn [pm pf TextAddr TextSize StackUsage GlobalsSize MemorySize MemoryDataSize ModuleSize CallSitesSize FuncAddrsSize].
  rewrite EG. repeat match goal with |- _ /\ _ => split end; try lia; try assumption.
  - apply stateOf_ext; [lia|lia| |]; intros k Hk.
    + rewrite copyRange_out by lia. rewrite copyRange_in by lia. f_equal. lia.
    + rewrite copyRange_in by lia. f_equal. lia.
  - intros x Hx. rewrite (alignPage_id _ (memory_aligned _ Gp)) in Hx. lia.
  - apply bytesAt_ext. intros k Hk. unfold progTextOffset, progGlobalsOffset in *. rewrite copyRange_out by lia. rewrite copyRange_out by lia.
    rewrite copyRange_in by lia. f_equal. lia.
  - apply bytesAt_list; [reflexivity|]. intros k Hk. unfold progTextOffset, progGlobalsOffset, progModuleOffset in *. rewrite copyRange_out by lia. rewrite copyRange_out by lia.
    rewrite copyRange_out by lia. rewrite writeAt_out by lia. rewrite writeAt_in by lia. f_equal. lia.
Qed.

Lemma becomes_spec x y : good x -> becomes x y -> good y /\ imageState y = imageState x.
Proof.
  intros G H. destruct H as [p n i B E|i|old i module map EG LM NZ T]; simpl in *.
  - destruct (new_spec p n i G) as (S & G' & _); [lia|assumption|]. auto.
  - destruct (storeLoad_spec i G). auto.
  - destruct (snapshot_spec old i module map G EG LM NZ T) as (S & G' & _). auto.
Qed.
