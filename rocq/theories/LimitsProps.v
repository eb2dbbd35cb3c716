(* LimitsProps.v: memory limits and time resolution (C46), entry functions (C29). *)
From Verif Require Import Base Limits.

(* ---- C46: memory ---- *)

Lemma align_spec n : alignMemorySize n mod wasmPage = 0 /\ n <= alignMemorySize n < n + wasmPage.
Proof.
  unfold alignMemorySize, wasmPage. split; [apply Z.mod_mul; lia|].
  pose proof (Z.div_mod (n + (65536 - 1)) 65536 ltac:(lia)). pose proof (Z.mod_pos_bound (n + (65536 - 1)) 65536 ltac:(lia)). lia.
Qed.
Lemma align_id n : n mod wasmPage = 0 -> alignMemorySize n = n.
Proof.
  intros M. destruct (align_spec n) as [A B]. unfold wasmPage in *.
  apply Z.mod_divide in M; [|lia]. apply Z.mod_divide in A; [|lia]. destruct M as [k K], A as [j J]. lia.
Qed.
Lemma align_le n limit : limit mod wasmPage = 0 -> n <= limit -> alignMemorySize n <= limit.
Proof.
  intros M L. destruct (align_spec n) as [A B]. unfold wasmPage in *.
  apply Z.mod_divide in M; [|lia]. apply Z.mod_divide in A; [|lia]. destruct M as [k K], A as [j J]. lia.
Qed.
Lemma u32_small n : 0 <= n < 2 ^ 32 -> u32 n = n.
Proof. intros. unfold u32. now apply Z.mod_small. Qed.

(* The limit that was asked for: the policy's, or the module's if it has a lower one. *)
Definition asked (limit policy : Z) : Z := if 0 <=? limit then Z.min limit policy else policy.

(* An instance of a known module gets exactly that limit. *)
Theorem memory_known_partial : forall limit initial policy r,
  0 <= policy < 2 ^ 32 -> known_memory limit initial policy = r ->
  r = (if asked limit policy <? initial then Err else Ok (asked limit policy)).
Proof.
  intros limit initial policy r P <-. unfold known_memory, maxInstanceMemory, asked.
  destruct (Z.leb_spec 0 limit); cbn [andb].
  - destruct (Z.ltb_spec limit policy).
    + rewrite Z.min_l by lia. destruct (Z.leb_spec 0 limit); [|lia]. cbn [andb]. destruct (Z.ltb_spec limit initial); [reflexivity|]. cbn [bind]. now rewrite u32_small by lia.
    + rewrite Z.min_r by lia. destruct (Z.leb_spec 0 policy); [|lia]. cbn [andb]. destruct (Z.ltb_spec policy initial); [reflexivity|]. cbn [bind]. now rewrite u32_small by lia.
  - destruct (Z.leb_spec 0 policy); [|lia]. cbn [andb]. destruct (Z.ltb_spec policy initial); [reflexivity|]. cbn [bind]. now rewrite u32_small by lia.
Qed.
Print Assumptions memory_known_partial.

(* An instance created while its module is uploaded gets a limit of whole pages, at most
   the module's limit, and less than a page above the policy's. *)
Theorem memory_upload_partial : forall limit initial policy r,
  0 <= policy <= 2 ^ 32 - wasmPage -> (0 <= limit -> limit mod wasmPage = 0) ->
  upload_memory limit initial policy = Ok r ->
  r mod wasmPage = 0 /\ initial <= r /\ (0 <= limit -> r <= limit) /\ asked limit policy <= r < asked limit policy + wasmPage /\
  (policy mod wasmPage = 0 -> r = asked limit policy).
Proof.
  intros limit initial policy r P LM H. unfold upload_memory, SetMaxMemorySize in H.
  set (m := if (0 <=? limit) && (limit <? policy) then limit else policy) in *.
  assert (A : m = asked limit policy).
  { unfold m, asked. destruct (Z.leb_spec 0 limit); cbn [andb]; [|reflexivity]. destruct (Z.ltb_spec limit policy); lia. }
  destruct (Z.ltb_spec (alignMemorySize m) initial) as [|I]; [discriminate|]. cbn [bind] in H. unfold maxInstanceMemory in H.
  destruct (align_spec m) as [AM AB].
  assert (M0 : 0 <= m <= policy) by (rewrite A; unfold asked; destruct (Z.leb_spec 0 limit); lia).
  assert (LE : 0 <= limit -> alignMemorySize m <= limit) by (intros L; apply align_le; [now apply LM|rewrite A; unfold asked; destruct (Z.leb_spec 0 limit); lia]).
  assert (Q : (if (0 <=? limit) && (limit <? alignMemorySize m) then limit else alignMemorySize m) = alignMemorySize m).
  { destruct (Z.leb_spec 0 limit); cbn [andb]; [|reflexivity]. destruct (Z.ltb_spec limit (alignMemorySize m)); [|reflexivity]. specialize (LE ltac:(lia)). lia. }
  assert (PM' : policy mod wasmPage = 0 -> m = alignMemorySize m).
  { intros PM. symmetry. apply align_id. unfold m. destruct (Z.leb_spec 0 limit); cbn [andb]; [|exact PM]. destruct (limit <? policy); [now apply LM|exact PM]. }
  assert (UB : alignMemorySize m <= 2 ^ 32 - wasmPage) by (apply align_le; [reflexivity|clear - P M0; lia]).
  rewrite Q in H. clear Q LM. rewrite <- A. clearbody m. set (a := alignMemorySize m) in *. clearbody a.
  assert (W : wasmPage = 65536) by reflexivity.
  assert (NN : 0 <= a) by (clear - M0 AB; lia). assert (UB' : a < 2 ^ 32) by (clear - UB W; lia).
  rewrite (proj2 (Z.leb_le 0 a) NN) in H. cbn [andb] in H. destruct (a <? initial) eqn:AI; [discriminate|]. cbn [bind] in H.
  rewrite u32_small in H by (split; assumption). assert (R : r = a) by congruence. subst r.
  split; [exact AM|]. split; [exact I|]. split; [exact LE|]. split; [exact AB|]. intros PM. symmetry. now apply PM'.
Qed.
Print Assumptions memory_upload_partial.

(* With a policy limit of whole pages it does not matter how the instance is created. *)
Theorem memory_paths_agree_partial : forall limit initial policy,
  0 <= policy <= 2 ^ 32 - wasmPage -> policy mod wasmPage = 0 -> (0 <= limit -> limit mod wasmPage = 0) ->
  upload_memory limit initial policy = known_memory limit initial policy.
Proof.
  intros limit initial policy P PM LM.
  rewrite (memory_known_partial limit initial policy _ ltac:(unfold wasmPage in *; lia) eq_refl).
  destruct (upload_memory limit initial policy) as [r| |] eqn:U.
  - destruct (memory_upload_partial limit initial policy r P LM U) as (_ & I & _ & _ & E). rewrite (E PM) in *. destruct (Z.ltb_spec (asked limit policy) initial); [lia|reflexivity].
  - unfold upload_memory, SetMaxMemorySize in U. set (m := if (0 <=? limit) && (limit <? policy) then limit else policy) in *.
    assert (A : m = asked limit policy) by (unfold m, asked; destruct (Z.leb_spec 0 limit); cbn [andb]; [|reflexivity]; destruct (Z.ltb_spec limit policy); lia).
    assert (AM : alignMemorySize m = m) by (apply align_id; unfold m; destruct (Z.leb_spec 0 limit); cbn [andb]; [|exact PM]; destruct (limit <? policy); [now apply LM|exact PM]).
    rewrite AM, A in U. destruct (asked limit policy <? initial) eqn:X; [reflexivity|exfalso]. cbn [bind] in U. unfold maxInstanceMemory in U.
    assert (Q : (if (0 <=? limit) && (limit <? asked limit policy) then limit else asked limit policy) = asked limit policy).
    { unfold asked. destruct (Z.leb_spec 0 limit); cbn [andb]; [|reflexivity]. destruct (Z.ltb_spec limit (Z.min limit policy)); lia. }
    rewrite Q, X, andb_false_r in U. discriminate.
  - exfalso. unfold upload_memory, SetMaxMemorySize in U. destruct (_ <? initial); [discriminate|]. cbn [bind] in U. unfold maxInstanceMemory in U. destruct (_ && _) in U; [discriminate|]. 
    repeat match type of U with context [if ?c then _ else _] => destruct c; try discriminate U end; cbn [bind] in U; discriminate U.
Qed.
Print Assumptions memory_paths_agree_partial.
Example memory_example : upload_memory 131072 65536 33554432 = Ok 131072 /\ known_memory 131072 65536 33554432 = Ok 131072 /\ known_memory (-1) 65536 33554432 = Ok 33554432.
Proof. repeat split. Qed.

(* C46, refuted: a policy limit which is not a number of whole pages is exceeded. *)
Theorem memory_policy_refuted : forall policy, 0 <= policy < 2 ^ 32 - wasmPage -> policy mod wasmPage <> 0 ->
  exists r, upload_memory (-1) 0 policy = Ok r /\ policy < r.
Proof.
  intros policy P N. destruct (align_spec policy) as [A B]. exists (alignMemorySize policy). unfold upload_memory, SetMaxMemorySize. cbn [Z.leb Z.compare andb].
  destruct (Z.ltb_spec (alignMemorySize policy) 0); [lia|]. cbn [bind]. unfold maxInstanceMemory. cbn [Z.leb Z.compare andb].
  destruct (Z.leb_spec 0 (alignMemorySize policy)); [|lia]. cbn [andb]. destruct (Z.ltb_spec (alignMemorySize policy) 0); [lia|]. cbn [bind].
  rewrite u32_small by lia. split; [reflexivity|]. assert (alignMemorySize policy <> policy) by congruence. lia.
Qed.
Print Assumptions memory_policy_refuted.
(* C46, refuted: a limit of 4 GB or more is truncated to 32 bits, possibly to less than what
   the program has already; a negative one becomes large. *)
Theorem memory_truncated_refuted : forall initial policy, initial <= policy ->
  2 ^ 32 <= policy -> known_memory (-1) initial policy = Ok (policy mod 2 ^ 32).
Proof.
  intros initial policy I P. unfold known_memory, maxInstanceMemory. cbn [Z.leb Z.compare andb].
  destruct (Z.leb_spec 0 policy); [|lia]. cbn [andb]. destruct (Z.ltb_spec policy initial); [lia|reflexivity].
Qed.
Print Assumptions memory_truncated_refuted.
Theorem memory_negative_refuted : forall initial policy, - 2 ^ 31 <= policy < 0 ->
  exists r, known_memory (-1) initial policy = Ok r /\ 2 ^ 31 <= r.
Proof.
  intros initial policy P. unfold known_memory, maxInstanceMemory. cbn [Z.leb Z.compare andb].
  destruct (Z.leb_spec 0 policy); [lia|]. cbn [andb bind]. eexists. split; [reflexivity|].
  unfold u32. rewrite <- (Z.mod_unique policy (2 ^ 32) (-1) (policy + 2 ^ 32)); lia.
Qed.
Print Assumptions memory_negative_refuted.
Example memory_refuted_example : upload_memory (-1) 0 100000 = Ok 131072 /\ known_memory (-1) 65536 (2 ^ 32) = Ok 0 /\ known_memory (-1) 65536 (-1) = Ok (2 ^ 32 - 1).
Proof. repeat split. Qed.

(* ---- C46: time ---- *)

Theorem time_mask_exact : forall reso, exists k,
  1 <= k <= 30 /\
  (let r := if (0 <? reso) && (reso <=? 1000000000) then reso else 1000000000 in 2 ^ (k - 1) <= r < 2 ^ k) /\
  (forall t, 0 <= t < 2 ^ 32 -> Z.land t (timeMask reso) = t - t mod 2 ^ k).
Proof.
  intros reso. set (r := if (0 <? reso) && (reso <=? 1000000000) then reso else 1000000000).
  assert (ER : effective_resolution reso = r).
  { unfold effective_resolution, r, second. destruct (Z.leb_spec reso 0), (Z.ltb_spec 0 reso); try lia; cbn [orb andb]; [reflexivity|].
    destruct (Z.ltb_spec 1000000000 reso), (Z.leb_spec reso 1000000000); try lia; reflexivity. }
  assert (RB : 1 <= r <= 1000000000).
  { unfold r. destruct (Z.ltb_spec 0 reso); cbn [andb]; [|lia]. destruct (Z.leb_spec reso 1000000000); lia. }
  exists (Z.log2 r + 1). pose proof (Z.log2_spec r ltac:(lia)) as [L1 L2]. pose proof (Z.log2_nonneg r) as L0.
  assert (L3 : Z.log2 r < 30) by (apply Z.log2_lt_pow2; lia).
  split; [lia|]. split; [cbn zeta; replace (Z.log2 r + 1 - 1) with (Z.log2 r) by lia; rewrite <- Z.add_1_r in L2; lia|].
  intros t T. unfold timeMask. rewrite ER. rewrite (u32_small r) by lia. unfold bits_len. destruct (Z.leb_spec r 0); [lia|].
  set (k := Z.log2 r + 1) in *. assert (K : 1 <= k <= 30) by lia.
  assert (P : 0 < 2 ^ k) by (apply Z.pow_pos_nonneg; lia).
  rewrite Z.shiftl_1_l. unfold u32.
  assert (E : Z.lnot (2 ^ k - 1) mod 2 ^ 32 = Z.land (Z.lnot (Z.ones k)) (Z.ones 32)) by (rewrite Z.land_ones by lia; now rewrite Z.ones_equiv).
  rewrite E. rewrite Z.land_assoc, (Z.land_comm t), <- Z.land_assoc, (Z.land_ones t 32) by lia. rewrite (Z.mod_small t) by lia.
  rewrite Z.land_comm, <- Z.ldiff_land, Z.ldiff_ones_r by lia. rewrite Z.shiftl_mul_pow2, Z.shiftr_div_pow2 by lia.
  pose proof (Z.div_mod t (2 ^ k) ltac:(lia)). lia.
Qed.
Print Assumptions time_mask_exact.
Example time_mask_example : Z.land 123456789 (timeMask 10000000) = 117440512 /\ timeMask 10000000 = 2 ^ 32 - 2 ^ 24.
Proof. repeat split. Qed.

(* ---- C29: entry functions ---- *)

(* Wasm export names are unique; a wrapped export section occurs in snapshots only
   (build.go:85-88). *)
Definition valid (m : module) : Prop := NoDup (map ename (exports m)) /\ (wrapped m = true -> snapshot m = true).

Lemma name_eqb_eq a : forall b, name_eqb a b = true <-> a = b.
Proof.
  induction a as [|x a IH]; intros [|y b]; cbn; split; intros H; try congruence.
  - apply andb_prop in H. destruct H as [H1 H2]. apply Z.eqb_eq in H1. apply IH in H2. congruence.
  - injection H as <- <-. rewrite Z.eqb_refl. cbn. now apply IH.
Qed.
Lemma find_In l n e : find_export l n = Some e -> In e l /\ ename e = n.
Proof.
  induction l as [|x t IH]; cbn; [discriminate|]. destruct (name_eqb (ename x) n) eqn:E; [|intros H; apply IH in H; tauto].
  injection 1 as <-. split; [now left|now apply name_eqb_eq].
Qed.
Lemma find_None l n : find_export l n = None -> forall e, In e l -> ename e <> n.
Proof.
  induction l as [|x t IH]; cbn; [tauto|]. destruct (name_eqb (ename x) n) eqn:E; [discriminate|]. intros H e [<-|I]; [|now apply IH].
  intros Q. apply name_eqb_eq in Q. congruence.
Qed.
Lemma find_filter l n : NoDup (map ename l) -> find_export (filter eentry l) n = match find_export l n with Some e => if eentry e then Some e else None | None => None end.
Proof.
  induction l as [|x t IH]; intros N; cbn; [reflexivity|]. inversion N as [|? ? NI N']; subst. destruct (name_eqb (ename x) n) eqn:E.
  - destruct (eentry x) eqn:EX; cbn; [now rewrite E|].
    destruct (find_export (filter eentry t) n) as [e|] eqn:F; [|reflexivity]. exfalso. apply find_In in F. destruct F as [F Q]. apply filter_In in F.
    apply name_eqb_eq in E. apply NI. rewrite E, <- Q. apply in_map. apply F.
  - destruct (eentry x); cbn; [rewrite E|]; now apply IH.
Qed.
Lemma EntryFunc_ok m n e : find_export (exports m) n = Some e -> eentry e = true -> EntryFunc m (Some (eindex e)) = Ok (Some (eindex e)).
Proof.
  intros F E. unfold EntryFunc, entry_indexes. replace (existsb _ _) with true; [reflexivity|]. symmetry. apply existsb_exists. exists e. split; [|apply Nat.eqb_refl].
  apply filter_In. split; [|exact E]. now apply find_In in F.
Qed.

(* No export table makes the lookup of the entry function's address crash. *)
Lemma prog_resolve_known m n st i : prog_resolve m n st = Ok (Some i) -> EntryFunc m (Some i) = Ok (Some i).
Proof.
  intros H. assert (X : exists k e, find_export (entry_indexes m) k = Some e /\ eindex e = i).
  { unfold prog_resolve in H. destruct n as [|c n].
    - destruct (snapshot m || st); [discriminate|]. destruct (find_export (entry_indexes m) start_name) as [e|] eqn:F; [|discriminate]. exists start_name, e. split; [exact F|congruence].
    - destruct (if snapshot m || st then None else find_export (entry_indexes m) start_name); [discriminate|]. destruct (name_eqb (c :: n) start_name); [discriminate|].
      destruct (find_export (entry_indexes m) (c :: n)) as [e|] eqn:F; [|discriminate]. exists (c :: n), e. split; [exact F|congruence]. }
  destruct X as (k & e & F & <-). apply find_In in F. destruct F as [F _]. unfold EntryFunc. replace (existsb _ _) with true; [reflexivity|].
  symmetry. apply existsb_exists. exists e. split; [exact F|apply Nat.eqb_refl].
Qed.
Lemma build_resolve_known m n st i : build_resolve m n st = Ok (Some i) -> EntryFunc m (Some i) = Ok (Some i).
Proof.
  intros H. assert (X : exists k e, find_export (exports m) k = Some e /\ eentry e = true /\ eindex e = i).
  { unfold build_resolve in H. destruct n as [|c n].
    - destruct st; [discriminate|]. destruct (find_export (exports m) start_name) as [e|] eqn:F; [|discriminate]. destruct (eentry e) eqn:EE; [|discriminate]. exists start_name, e. repeat split; [exact F|exact EE|congruence].
    - destruct (if st then None else find_export (exports m) start_name); [discriminate|]. destruct (name_eqb (c :: n) start_name); [discriminate|].
      destruct (find_export (exports m) (c :: n)) as [e|] eqn:F; [|discriminate]. destruct (eentry e) eqn:EE; [|discriminate]. exists (c :: n), e. repeat split; [exact F|exact EE|congruence]. }
  destruct X as (k & e & F & EE & <-). now apply (EntryFunc_ok m k).
Qed.
Theorem entry_no_crash : forall m n, upload_launch m n <> Panic /\ known_launch m n <> Panic.
Proof.
  intros m n. split.
  - unfold upload_launch. destruct (wrapped m).
    + destruct n; discriminate.
    + destruct (build_resolve m n (snapshot m)) as [[i|]| |] eqn:B; cbn [bind]; try discriminate.
      * destruct (negb _); [discriminate|]. rewrite (build_resolve_known _ _ _ _ B). discriminate.
      * exfalso. unfold build_resolve in B. destruct n; [destruct (if snapshot m then None else _); discriminate|].
        destruct (if snapshot m then None else _); [discriminate|]. destruct (name_eqb _ _); [discriminate|]. destruct (find_export _ _); [|discriminate]. destruct (eentry _); discriminate.
  - unfold known_launch. destruct (prog_resolve m n false) as [[i|]| |] eqn:B; cbn [bind]; try discriminate.
    + destruct (negb _); [discriminate|]. rewrite (prog_resolve_known _ _ _ _ B). discriminate.
    + exfalso. unfold prog_resolve in B. destruct n; [discriminate|].
      destruct (if snapshot m || false then None else _); [discriminate|]. destruct (name_eqb _ _); [discriminate|]. destruct (find_export _ _); discriminate.
Qed.
Print Assumptions entry_no_crash.

(* The cases in which the two ways may disagree: a function is asked for by name from a
   module that exports a _start function of an unsuitable type, or from a snapshot whose
   exports are wrapped: either it has no stack, or the name is _start. *)
Definition odd_start (m : module) : Prop := snapshot m = false /\ exists e, find_export (exports m) start_name = Some e /\ eentry e = false.
Definition odd_snapshot (m : module) (n : name) : Prop := wrapped m = true /\ (stack m = 0 \/ n = start_name).

Theorem entry_agree_partial : forall m n, valid m -> n = [] \/ ~ (odd_start m \/ odd_snapshot m n) ->
  upload_launch m n = known_launch m n.
Proof.
  intros m n [ND WS] H. unfold upload_launch, known_launch.
  unfold prog_resolve, build_resolve, entry_indexes. rewrite !find_filter by assumption.
  destruct (wrapped m) eqn:W.
  - rewrite (WS eq_refl). cbn [orb].
    destruct n as [|c n]; [reflexivity|]. destruct H as [H|H]; [discriminate|].
    assert (ST : stack m <> 0) by (intros S; apply H; right; split; [assumption|now left]).
    apply Z.eqb_neq in ST. rewrite ST. cbn [negb bind]. destruct (name_eqb (c :: n) start_name) eqn:SN.
    + exfalso. apply H. right. split; [exact W|]. right. now apply name_eqb_eq.
    + destruct (find_export (exports m) (c :: n)) as [e|]; [|reflexivity]. destruct (eentry e); reflexivity.
  - destruct (snapshot m) eqn:S; cbn [orb].
    + destruct n as [|c n]; [reflexivity|]. destruct (name_eqb (c :: n) start_name); [reflexivity|].
      destruct (find_export (exports m) (c :: n)) as [e|]; [|reflexivity]. destruct (eentry e); reflexivity.
    + destruct (find_export (exports m) start_name) as [e|] eqn:F.
      * destruct (eentry e) eqn:EE; [destruct n; reflexivity|]. destruct n as [|c n]; [reflexivity|]. destruct H as [H|H]; [discriminate|].
        exfalso. apply H. left. split; [exact S|]. exists e. split; assumption.
      * destruct n as [|c n]; [reflexivity|]. destruct (name_eqb (c :: n) start_name); [reflexivity|].
        destruct (find_export (exports m) (c :: n)) as [e|]; [|reflexivity]. destruct (eentry e); reflexivity.
Qed.
Print Assumptions entry_agree_partial.

(* What is launched is what was asked for: the named function, or _start; and it has a
   suitable type. *)
Theorem entry_named_exact : forall m n i, valid m -> known_launch m n = Ok (Some i) \/ upload_launch m n = Ok (Some i) ->
  stack m = 0 /\ exists e, In e (exports m) /\ eindex e = i /\ eentry e = true /\
  ename e = match n with [] => start_name | _ => n end.
Proof.
  intros m n i [ND WS] H.
  assert (K : stack m = 0 /\ exists e, find_export (exports m) (match n with [] => start_name | _ => n end) = Some e /\ eindex e = i /\ eentry e = true).
  { destruct H as [H|H].
    - unfold known_launch in H. destruct (prog_resolve m n false) as [[j|]| |] eqn:B; cbn [bind] in H; try discriminate.
      destruct (Z.eqb_spec (stack m) 0) as [S|S]; cbn [negb] in H; [|discriminate]. rewrite (prog_resolve_known _ _ _ _ B) in H. assert (j = i) by congruence. subst j. split; [exact S|].
      unfold prog_resolve, entry_indexes in B. rewrite !find_filter in B by assumption. destruct n as [|c n].
      + destruct (snapshot m || false); [discriminate|]. destruct (find_export (exports m) start_name) as [e|]; [|discriminate]. destruct (eentry e) eqn:E; [|discriminate]. exists e. repeat split; [congruence|exact E].
      + destruct (if snapshot m || false then None else _); [discriminate|]. destruct (name_eqb _ _); [discriminate|].
        destruct (find_export (exports m) (c :: n)) as [e|]; [|discriminate]. destruct (eentry e) eqn:E; [|discriminate]. exists e. repeat split; [congruence|exact E].
    - unfold upload_launch in H. destruct (wrapped m); [destruct n; discriminate|].
      destruct (build_resolve m n (snapshot m)) as [[j|]| |] eqn:B; cbn [bind] in H; try discriminate.
      destruct (Z.eqb_spec (stack m) 0) as [S|S]; cbn [negb] in H; [|discriminate]. rewrite (build_resolve_known _ _ _ _ B) in H. assert (j = i) by congruence. subst j. split; [exact S|].
      unfold build_resolve in B. destruct n as [|c n].
      + destruct (snapshot m); [discriminate|]. destruct (find_export (exports m) start_name) as [e|]; [|discriminate]. destruct (eentry e) eqn:E; [|discriminate]. exists e. repeat split; [congruence|exact E].
      + destruct (if snapshot m then None else _); [discriminate|]. destruct (name_eqb _ _); [discriminate|].
        destruct (find_export (exports m) (c :: n)) as [e|]; [|discriminate]. destruct (eentry e) eqn:E; [|discriminate]. exists e. repeat split; [congruence|exact E]. }
  destruct K as (S & e & F & I & E). split; [exact S|]. apply find_In in F. exists e. tauto.
Qed.
Print Assumptions entry_named_exact.

Definition main_name : name := [109; 97; 105; 110].
Definition plain_module : module := Module [Export main_name 3 true; Export [102] 4 false] false false 0.
Example entry_example : valid plain_module /\ ~ (odd_start plain_module \/ odd_snapshot plain_module main_name) /\
  upload_launch plain_module main_name = Ok (Some 3%nat) /\ known_launch plain_module main_name = Ok (Some 3%nat) /\
  upload_launch plain_module [102] = Err /\ known_launch plain_module [102] = Err /\ known_launch plain_module [] = Ok None.
Proof.
  split; [split; [cbn; repeat constructor; cbn; intuition discriminate|discriminate]|].
  split; [intros [[_ (e & F & _)]|[W _]]; discriminate|]. repeat split.
Qed.

(* C29, refuted: with an unsuitable _start, any exported function with a suitable type
   can be launched by name from the known module, but not while uploading it. *)
Theorem entry_start_refuted : forall m e, valid m -> odd_start m -> wrapped m = false -> stack m = 0 ->
  In e (exports m) -> eentry e = true -> ename e <> [] ->
  upload_launch m (ename e) = Err /\ known_launch m (ename e) = Ok (Some (eindex e)).
Proof.
  intros m e [ND WS] [S (se & F & SE)] W ST I E N. unfold upload_launch, known_launch. rewrite W, ST, S. cbn [Z.eqb negb].
  assert (FE : forall l, NoDup (map ename l) -> In e l -> find_export l (ename e) = Some e).
  { clear. induction l as [|x l IH]; intros N []; cbn.
    - subst x. now rewrite (proj2 (name_eqb_eq _ _) eq_refl).
    - inversion N as [|? ? NI N']; subst. destruct (name_eqb (ename x) (ename e)) eqn:Q; [|now apply IH]. apply name_eqb_eq in Q. exfalso. apply NI. rewrite Q. now apply in_map. }
  pose proof (FE (exports m) ND I) as F1. split.
  - unfold build_resolve. rewrite F. destruct (ename e); [contradiction|reflexivity].
  - assert (R : prog_resolve m (ename e) false = Ok (Some (eindex e))).
    { unfold prog_resolve, entry_indexes. rewrite S. cbn [orb]. rewrite !find_filter by assumption. rewrite F, SE, F1, E.
      destruct (name_eqb (ename e) start_name) eqn:Q; [|destruct (ename e); [contradiction|reflexivity]].
      apply name_eqb_eq in Q. rewrite Q in F1. congruence. }
    rewrite R. cbn [bind]. now apply (EntryFunc_ok m (ename e)).
Qed.
Print Assumptions entry_start_refuted.
Example entry_start_refuted_example :
  let m := Module [Export start_name 0 false; Export main_name 3 true] false false 0 in
  valid m /\ odd_start m /\ upload_launch m main_name = Err /\ known_launch m main_name = Ok (Some 3%nat).
Proof.
  cbn zeta. split; [split; [cbn; repeat constructor; cbn; intuition discriminate|discriminate]|].
  split; [split; [reflexivity|eexists; split; reflexivity]|]. split; reflexivity.
Qed.

(* C29, refuted: asking for _start of a suspended program is an error while uploading the
   snapshot, and ignored when the same snapshot is known already. *)
Theorem entry_snapshot_refuted : forall m, valid m -> wrapped m = true ->
  upload_launch m start_name = Err /\ known_launch m start_name = Ok None.
Proof.
  intros m [ND WS] W. unfold upload_launch, known_launch, prog_resolve. rewrite W, (WS W). split; reflexivity.
Qed.
Print Assumptions entry_snapshot_refuted.
(* C29, refuted: a snapshot with wrapped exports and no stack. *)
Theorem entry_wrapped_refuted : exists m n, valid m /\ wrapped m = true /\ upload_launch m n = Err /\ known_launch m n = Ok (Some 3%nat).
Proof.
  exists (Module [Export main_name 3 true] true true 0), main_name. repeat split; [|reflexivity..]. cbn. repeat constructor. cbn. tauto.
Qed.
Print Assumptions entry_wrapped_refuted.
