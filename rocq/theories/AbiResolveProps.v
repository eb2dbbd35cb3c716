(* AbiResolveProps.v: import resolution (C45). *)
From Verif Require Import Base AbiResolve.

(* ---- Specification ---- *)

(* The functions of the WASI standard (wasi_snapshot_preview1) and their types. *)
Definition wasi_standard : list (string * sig) := [
  ("args_get", ([I32; I32], [I32]));
  ("args_sizes_get", ([I32; I32], [I32]));
  ("clock_res_get", ([I32; I32], [I32]));
  ("clock_time_get", ([I32; I64; I32], [I32]));
  ("environ_get", ([I32; I32], [I32]));
  ("environ_sizes_get", ([I32; I32], [I32]));
  ("fd_advise", ([I32; I64; I64; I32], [I32]));
  ("fd_allocate", ([I32; I64; I64], [I32]));
  ("fd_close", ([I32], [I32]));
  ("fd_datasync", ([I32], [I32]));
  ("fd_fdstat_get", ([I32; I32], [I32]));
  ("fd_fdstat_set_flags", ([I32; I32], [I32]));
  ("fd_fdstat_set_rights", ([I32; I64; I64], [I32]));
  ("fd_filestat_get", ([I32; I32], [I32]));
  ("fd_filestat_set_size", ([I32; I64], [I32]));
  ("fd_filestat_set_times", ([I32; I64; I64; I32], [I32]));
  ("fd_pread", ([I32; I32; I32; I64; I32], [I32]));
  ("fd_prestat_dir_name", ([I32; I32; I32], [I32]));
  ("fd_prestat_get", ([I32; I32], [I32]));
  ("fd_pwrite", ([I32; I32; I32; I64; I32], [I32]));
  ("fd_read", ([I32; I32; I32; I32], [I32]));
  ("fd_readdir", ([I32; I32; I32; I64; I32], [I32]));
  ("fd_renumber", ([I32; I32], [I32]));
  ("fd_seek", ([I32; I64; I32; I32], [I32]));
  ("fd_sync", ([I32], [I32]));
  ("fd_tell", ([I32; I32], [I32]));
  ("fd_write", ([I32; I32; I32; I32], [I32]));
  ("path_create_directory", ([I32; I32; I32], [I32]));
  ("path_filestat_get", ([I32; I32; I32; I32; I32], [I32]));
  ("path_filestat_set_times", ([I32; I32; I32; I32; I64; I64; I32], [I32]));
  ("path_link", ([I32; I32; I32; I32; I32; I32; I32], [I32]));
  ("path_open", ([I32; I32; I32; I32; I32; I64; I64; I32; I32], [I32]));
  ("path_readlink", ([I32; I32; I32; I32; I32; I32], [I32]));
  ("path_remove_directory", ([I32; I32; I32], [I32]));
  ("path_rename", ([I32; I32; I32; I32; I32; I32], [I32]));
  ("path_symlink", ([I32; I32; I32; I32; I32], [I32]));
  ("path_unlink_file", ([I32; I32; I32], [I32]));
  ("poll_oneoff", ([I32; I32; I32; I32], [I32]));
  ("proc_exit", ([I32], []));
  ("proc_raise", ([I32], [I32]));
  ("random_get", ([I32; I32], [I32]));
  ("sched_yield", ([], [I32]));
  ("sock_recv", ([I32; I32; I32; I32; I32; I32], [I32]));
  ("sock_send", ([I32; I32; I32; I32; I32], [I32]));
  ("sock_shutdown", ([I32; I32], [I32]))].

(* The functions of the gate interface. *)
Definition gate_standard : list (string * sig) := [
  ("fd", ([], [I32]));
  ("io", ([I32; I32; I32; I32; I32; I32; I32], []))].

(* A decimal numeral without leading zeros, and its value. *)
Inductive numeral : string -> Z -> Prop :=
| num_one c d : digit c = Some d -> d <> 0 -> numeral (String c "") d
| num_more s n c d : numeral s n -> digit c = Some d -> numeral (s ++ String c "") (10 * n + d).

(* The interface and the function an import means: env is an alias. *)
Inductive means : string -> string -> string -> string -> Prop :=
| means_env_gate f : means "env" ("__gate_" ++ f) "gate" f
| means_env_wasi f : means "env" ("__wasi_" ++ f) "wasi" f
| means_gate f : means "gate" f "gate" f
| means_wasi f : means "wasi_snapshot_preview1" f "wasi" f
| means_old_wasi f : means "wasi_unstable" f "wasi" f.

(* Gate functions have the maximum packet size (at least 65536) in their names. *)
Definition supported (module field : string) (s : sig) : Prop :=
  (exists p num n, means module field "gate" (p ++ "_" ++ num) /\ In (p, s) gate_standard /\ numeral num n /\ 65536 <= n) \/
  (exists f, means module field "wasi" f /\ In (f, s) wasi_standard).

(* ---- Proofs ---- *)

Lemma ty_eqb_eq a b : ty_eqb a b = true <-> a = b.
Proof. destruct a, b; cbn; split; intros; congruence. Qed.
Lemma tys_eqb_eq a : forall b, tys_eqb a b = true <-> a = b.
Proof.
  induction a as [|x a IH]; intros [|y b]; cbn; split; intros H; try congruence.
  - apply andb_prop in H. destruct H as [H1 H2]. apply ty_eqb_eq in H1. apply IH in H2. congruence.
  - injection H as <- <-. apply andb_true_intro. split; [now apply ty_eqb_eq|now apply IH].
Qed.
Lemma sig_eqb_eq a b : sig_eqb a b = true <-> a = b.
Proof.
  unfold sig_eqb. destruct a as [p r], b as [p' r']; cbn. split; intros H.
  - apply andb_prop in H. destruct H as [H1 H2]. apply tys_eqb_eq in H1, H2. congruence.
  - injection H as <- <-. apply andb_true_intro. split; now apply tys_eqb_eq.
Qed.

Lemma strip_spec p : forall s t, strip p s = Some t <-> s = (p ++ t)%string.
Proof.
  induction p as [|a p IH]; intros s t; cbn; [split; congruence|]. destruct s as [|b s]; [split; discriminate|].
  destruct (Ascii.eqb_spec a b) as [<-|N].
  - rewrite IH. split; congruence.
  - split; [discriminate|]. intros E. injection E as E _. congruence.
Qed.

(* no underscore *)
Fixpoint plain (s : string) : bool :=
  match s with EmptyString => true | String c t => negb (Ascii.eqb c "_") && plain t end.
Lemma last_split_none s : last_split s = None <-> plain s = true.
Proof.
  induction s as [|c t IH]; cbn; [split; reflexivity|]. destruct (last_split t) as [[a b]|] eqn:E.
  - split; [discriminate|]. intros H. apply andb_prop in H. destruct H as [_ H]. apply IH in H. discriminate.
  - destruct (Ascii.eqb c "_"); cbn; [split; discriminate|]. split; [intros _; now apply IH|reflexivity].
Qed.
Lemma last_split_spec s : forall a b, last_split s = Some (a, b) <-> s = (a ++ "_" ++ b)%string /\ plain b = true.
Proof.
  induction s as [|c t IH]; intros a b; cbn [last_split].
  - split; [discriminate|]. intros [H _]. destruct a; discriminate.
  - destruct (last_split t) as [[a' b']|] eqn:E.
    + destruct (proj1 (IH a' b') eq_refl) as [-> P]. split.
      * intros H. injection H as <- <-. split; [reflexivity|exact P].
      * intros [H Q]. destruct a as [|c' a]; cbn in H.
        -- injection H as -> <-. apply last_split_none in Q. cbn in E. congruence.
        -- injection H as <- H. assert (X : Some (a', b') = Some (a, b)) by (apply IH; split; [exact H|exact Q]). injection X as <- <-. reflexivity.
    + assert (P := proj1 (last_split_none t) E). destruct (Ascii.eqb_spec c "_") as [->|N].
      * split.
        -- intros H. injection H as <- <-. auto.
        -- intros [H Q]. destruct a as [|c' a]; cbn in H; [injection H as <-; reflexivity|].
           injection H as <- H. assert (X : None = Some (a, b)) by (apply IH; split; [exact H|exact Q]). discriminate.
      * split; [discriminate|]. intros [H Q]. destruct a as [|c' a]; cbn in H; [injection H as H _; congruence|].
        injection H as <- H. assert (X : None = Some (a, b)) by (apply IH; split; [exact H|exact Q]). discriminate.
Qed.

(* Values of numerals. *)
Fixpoint value (n : Z) (s : string) : option Z :=
  match s with
  | EmptyString => Some n
  | String c t => match digit c with Some d => value (10 * n + d) t | None => None end
  end.
Lemma digit_range c d : digit c = Some d -> 0 <= d <= 9.
Proof. unfold digit. destruct ((48 <=? Z.of_nat (nat_of_ascii c)) && (Z.of_nat (nat_of_ascii c) <=? 57)) eqn:E; [|discriminate]. injection 1 as <-. lia. Qed.
Lemma value_app s : forall n c, value n (s ++ String c "") = match value n s, digit c with Some v, Some d => Some (10 * v + d) | _, _ => None end.
Proof. induction s as [|x s IH]; intros n c; cbn [append value]; [now destruct (digit c)|]. destruct (digit x); [apply IH|reflexivity]. Qed.
Lemma strip0 c s : strip "0" (String c s) = if Ascii.eqb "0" c then Some s else None.
Proof. reflexivity. Qed.
Lemma numeral_value s n : numeral s n -> value 0 s = Some n /\ strip "0" s = None /\ s <> EmptyString.
Proof.
  induction 1 as [c d D N|s n c d H (IH & NZ & NE) D].
  - cbn [value]. rewrite D. split; [f_equal; lia|]. split; [|discriminate]. rewrite strip0. destruct (Ascii.eqb_spec "0" c) as [<-|]; [|reflexivity]. change (Some 0 = Some d) in D. congruence.
  - rewrite value_app, IH, D. split; [reflexivity|]. split; [|destruct s; discriminate]. destruct s as [|x s]; [congruence|]. cbn [append]. rewrite strip0 in *. destruct (Ascii.eqb "0" x); [discriminate|reflexivity].
Qed.
(* list induction from the end *)
Lemma string_rev_ind (P : string -> Prop) : P "" -> (forall s c, P s -> P (s ++ String c "")) -> forall s, P s.
Proof.
  intros H0 HS s. remember (String.length s) as k eqn:K. revert s K.
  assert (SP : forall s, s <> "" -> exists t c, s = t ++ String c "" /\ String.length s = S (String.length t)).
  { induction s as [|x s IH]; [congruence|]. intros _. destruct s as [|y s]; [exists "", x; auto|]. destruct (IH ltac:(discriminate)) as (t & c & E & L).
    exists (String x t), c. rewrite E. split; [reflexivity|]. rewrite E in L. cbn [append String.length] in *. now rewrite L. }
  induction k as [|k IH]; intros s K.
  - destruct s; [exact H0|discriminate].
  - destruct (SP s) as (t & c & E & L); [destruct s; discriminate|]. rewrite E. apply HS. apply IH. lia.
Qed.
Lemma value_numeral s : forall n, value 0 s = Some n -> strip "0" s = None -> s <> "" -> numeral s n.
Proof.
  induction s as [|s c IH] using string_rev_ind; intros n V NZ NE; [congruence|].
  rewrite value_app in V. destruct (value 0 s) as [v|] eqn:E; [|discriminate]. destruct (digit c) as [d|] eqn:D; [|discriminate]. assert (EN : n = 10 * v + d) by congruence. clear V. subst n.
  destruct s as [|x s].
  - cbn in E. injection E as <-. cbn [append]. match goal with |- numeral _ ?x => replace x with d by lia end. apply num_one; [exact D|]. intros ->.
    cbn [append] in NZ. rewrite strip0 in NZ. destruct (Ascii.eqb_spec "0" c) as [<-|N]; [discriminate|]. apply N. unfold digit in D.
    destruct ((48 <=? Z.of_nat (nat_of_ascii c)) && (Z.of_nat (nat_of_ascii c) <=? 57)) eqn:R; [|discriminate]. injection D as D.
    assert (NC : nat_of_ascii c = 48%nat) by lia. rewrite <- (ascii_nat_embedding c), NC. reflexivity.
  - apply num_more; [|exact D]. apply IH; [reflexivity| |discriminate]. cbn [append] in NZ. rewrite strip0 in *. destruct (Ascii.eqb "0" x); [discriminate|reflexivity].
Qed.
Lemma value_mono s : forall n v, 0 <= n -> value n s = Some v -> n <= v.
Proof.
  induction s as [|c s IH]; intros n v N V; cbn [value] in V; [injection V as <-; lia|]. destruct (digit c) as [d|] eqn:D; [|discriminate].
  apply digit_range in D. apply IH in V; lia.
Qed.
Lemma allDigits_value s : forall n, allDigits s = true <-> exists v, value n s = Some v.
Proof.
  induction s as [|c s IH]; intros n; cbn; [split; eauto|]. destruct (digit c) as [d|]; [apply IH|]. split; [discriminate|]. intros [v V]. discriminate.
Qed.
Lemma parse_value s : forall n, 0 <= n -> match parse_loop n s with
  | PNum v => value n s = Some v
  | PRange => forall v, value n s = Some v -> 2 ^ 32 - 1 < v
  | PSyntax => value n s = None end.
Proof.
  induction s as [|c s IH]; intros n N; cbn [parse_loop value]; [reflexivity|]. destruct (digit c) as [d|] eqn:D; [|reflexivity]. cbv zeta.
  pose proof (digit_range _ _ D). destruct (Z.ltb_spec (2 ^ 32 - 1) (10 * n + d)) as [L|L]; [|apply IH; lia].
  intros v V. apply value_mono in V; lia.
Qed.
Lemma suffix_ok_spec s : suffix_ok s = true <-> exists n, numeral s n /\ 65536 <= n.
Proof.
  unfold suffix_ok. destruct (strip "0" s) as [t|] eqn:Z0.
  - split; [discriminate|]. intros (n & H & _). apply numeral_value in H. destruct H as (_ & H & _). congruence.
  - unfold ParseUint32. destruct s as [|c s'].
    { split; [discriminate|]. intros (n & H & _). apply numeral_value in H. destruct H as (_ & _ & H). congruence. }
    set (s := String c s') in *. pose proof (parse_value s 0 ltac:(lia)) as P. destruct (parse_loop 0 s) as [v| |].
    + unfold maxPacketSize. split.
      * intros H. exists v. split; [apply value_numeral; [exact P|exact Z0|discriminate]|lia].
      * intros (n & H & L). apply numeral_value in H. destruct H as (H & _). assert (n = v) by congruence. subst. lia.
    + split.
      * intros H. apply (allDigits_value s 0) in H. destruct H as [v V]. exists v. split; [apply value_numeral; [exact V|exact Z0|discriminate]|]. apply P in V. lia.
      * intros (n & H & L). apply numeral_value in H. destruct H as (H & _). apply (allDigits_value s 0). eauto.
    + split; [discriminate|]. intros (n & H & _). apply numeral_value in H. destruct H as (H & _). congruence.
Qed.
Lemma numeral_plain s n : numeral s n -> plain s = true.
Proof.
  induction 1 as [c d D N|s n c d H IH D].
  - cbn [plain]. destruct (Ascii.eqb_spec c "_") as [->|]; [discriminate D|reflexivity].
  - assert (A : forall s, plain s = true -> plain (s ++ String c "") = true).
    { clear - D. induction s as [|x s IH]; cbn [append plain]; [intros _; destruct (Ascii.eqb_spec c "_") as [->|]; [discriminate D|reflexivity]|].
      intros P. apply andb_prop in P. destruct P as [P1 P2]. rewrite P1. cbn. now apply IH. }
    now apply A.
Qed.

(* The tables. *)
Lemma assoc_In {A} k (l : list (string * A)) v : NoDup (map fst l) -> (assoc k l = Some v <-> In (k, v) l).
Proof.
  induction l as [|[k' v'] t IH]; intros N; cbn; [split; [discriminate|tauto]|]. inversion N as [|? ? NI N']; subst.
  destruct (String.eqb_spec k k') as [<-|D].
  - split; [intros H; injection H as <-; auto|]. intros [H|H]; [congruence|]. exfalso. apply NI. change k with (fst (k, v)). now apply in_map.
  - rewrite IH by assumption. split; [auto|]. intros [H|H]; [congruence|exact H].
Qed.
Fixpoint nodup_names (l : list string) : bool :=
  match l with [] => true | x :: t => negb (existsb (String.eqb x) t) && nodup_names t end.
Lemma nodup_names_NoDup l : nodup_names l = true -> NoDup l.
Proof.
  induction l as [|x t IH]; intros H; [constructor|]. cbn in H. apply andb_prop in H. destruct H as [H1 H2]. constructor; [|now apply IH].
  intros I. apply negb_true_iff in H1. assert (existsb (String.eqb x) t = true) by (apply existsb_exists; exists x; split; [exact I|apply String.eqb_refl]). congruence.
Qed.
Definition lib_of (e : string * (string * bool)) : string * option sig := (fst e, assoc (fst (snd e)) library).
Lemma assoc_map_lib f l : assoc f (map lib_of l) = match assoc f l with Some a => Some (assoc (fst a) library) | None => None end.
Proof. induction l as [|[k [n r]] t IH]; cbn; [reflexivity|]. destruct (String.eqb f k); [reflexivity|exact IH]. Qed.
Lemma assoc_map_snd {A B} (g : A -> B) f (l : list (string * A)) : assoc f (map (fun e => (fst e, g (snd e))) l) = match assoc f l with Some a => Some (g a) | None => None end.
Proof. induction l as [|[k a] t IH]; cbn; [reflexivity|]. destruct (String.eqb f k); [reflexivity|exact IH]. Qed.
(* The model's tables say the same as the standard, but for fd_allocate. *)
Lemma wasi_tables : map lib_of wasiFunctions = map (fun e => (fst e, if String.eqb (fst e) "fd_allocate" then None else Some (snd e))) wasi_standard.
Proof. reflexivity. Qed.
Lemma wasi_lib f : match assoc f wasiFunctions with Some a => Some (assoc (fst a) library) | None => None end =
  match assoc f wasi_standard with Some s => Some (if String.eqb f "fd_allocate" then None else Some s) | None => None end.
Proof.
  rewrite <- assoc_map_lib, wasi_tables. generalize wasi_standard. induction l as [|[k s] t IH]; cbn; [reflexivity|].
  destruct (String.eqb_spec f k) as [<-|]; [reflexivity|exact IH].
Qed.
Lemma gate_lib p : match assoc p gateFunctions with Some a => Some (assoc (fst a) library) | None => None end =
  match assoc p gate_standard with Some s => Some (Some s) | None => None end.
Proof.
  rewrite <- assoc_map_lib. change (map lib_of gateFunctions) with (map (fun e => (fst e, Some (snd e))) gate_standard). now rewrite assoc_map_snd.
Qed.
Lemma wasi_In f s : In (f, s) wasi_standard <-> assoc f wasi_standard = Some s.
Proof. symmetry. apply assoc_In, nodup_names_NoDup. reflexivity. Qed.
Lemma gate_In f s : In (f, s) gate_standard <-> assoc f gate_standard = Some s.
Proof. symmetry. apply assoc_In, nodup_names_NoDup. reflexivity. Qed.

(* The decision, with the import's meaning made explicit. *)
Inductive meaning := MGate (f : string) | MWasi (f : string) | MNone.
Definition meaning_of (m f : string) : meaning :=
  if String.eqb m "env" then
    match strip "__gate_" f with Some f => MGate f | None => match strip "__wasi_" f with Some f => MWasi f | None => MNone end end
  else if String.eqb m "gate" then MGate f
  else if String.eqb m "wasi_snapshot_preview1" || String.eqb m "wasi_unstable" then MWasi f
  else MNone.
Lemma means_gate_iff m f g : means m f "gate" g <-> meaning_of m f = MGate g.
Proof.
  unfold meaning_of. split.
  - inversion 1; subst; [|reflexivity]. change (String.eqb "env" "env") with true. cbv iota. now rewrite (proj2 (strip_spec "__gate_" _ g) eq_refl).
  - destruct (String.eqb_spec m "env") as [->|N].
    + destruct (strip "__gate_" f) as [f'|] eqn:S; [|destruct (strip "__wasi_" f); discriminate]. injection 1 as ->. apply strip_spec in S. subst f. constructor.
    + destruct (String.eqb_spec m "gate") as [->|]; [injection 1 as ->; constructor|]. destruct (String.eqb m "wasi_snapshot_preview1" || String.eqb m "wasi_unstable"); discriminate.
Qed.
Lemma means_wasi_iff m f g : means m f "wasi" g <-> meaning_of m f = MWasi g.
Proof.
  unfold meaning_of. split.
  - inversion 1; subst; reflexivity.
  - destruct (String.eqb_spec m "env") as [->|N].
    + destruct (strip "__gate_" f) as [f'|] eqn:S; [discriminate|]. destruct (strip "__wasi_" f) as [f'|] eqn:S'; [|discriminate]. injection 1 as ->. apply strip_spec in S'. subst f. constructor.
    + destruct (String.eqb_spec m "gate"); [discriminate|]. destruct (String.eqb_spec m "wasi_snapshot_preview1") as [->|]; [injection 1 as ->; constructor|].
      destruct (String.eqb_spec m "wasi_unstable") as [->|]; [injection 1 as ->; constructor|discriminate].
Qed.

Definition decide (m f : string) (s : sig) : verdict :=
  match meaning_of m f with
  | MGate g =>
      match last_split g with
      | Some (String c p, num) =>
          match assoc (String c p) gateFunctions with
          | Some (name, random) =>
              if suffix_ok num then
                match assoc name library with None => Crash | Some l => if sig_eqb s l then Accept name random else Reject end
              else Crash
          | None => Reject
          end
      | _ => Reject
      end
  | MWasi g =>
      match assoc g wasiFunctions with
      | Some (name, random) => match assoc name library with None => Crash | Some l => if sig_eqb s l then Accept name random else Reject end
      | None => Reject
      end
  | MNone => Reject
  end.
Lemma ResolveFunc_decide m f s : ResolveFunc m f s = decide m f s.
Proof.
  unfold ResolveFunc, decide, meaning_of.
  assert (GT : forall g, match (match last_split g with None => Ok None | Some (EmptyString, _) => Ok None
      | Some ((String _ _) as prefix, suffix) => match assoc prefix gateFunctions with None => Ok None | Some a => if suffix_ok suffix then Ok (Some a) else Panic end end) with
    | Ok (Some (name, random)) => match assoc name library with None => Crash | Some libsig => if sig_eqb s libsig then Accept name random else Reject end
    | Ok None => Reject | _ => Crash end =
    match last_split g with
      | Some (String c p, num) =>
          match assoc (String c p) gateFunctions with
          | Some (name, random) =>
              if suffix_ok num then
                match assoc name library with None => Crash | Some l => if sig_eqb s l then Accept name random else Reject end
              else Crash
          | None => Reject
          end
      | _ => Reject
      end).
  { intros g. destruct (last_split g) as [[[|c p] num]|]; try reflexivity. destruct (assoc (String c p) gateFunctions) as [[name random]|]; [|reflexivity]. destruct (suffix_ok num); reflexivity. }
  destruct (String.eqb_spec m "env") as [->|N].
  - destruct (strip "__gate_" f) as [g|]; [apply (GT g)|]. destruct (strip "__wasi_" f) as [g|]; [|reflexivity].
    cbn [String.eqb Ascii.eqb Bool.eqb orb]. destruct (assoc g wasiFunctions) as [[name random]|]; reflexivity.
  - destruct (String.eqb m "gate"); [apply (GT f)|]. destruct (String.eqb m "wasi_snapshot_preview1" || String.eqb m "wasi_unstable"); [|reflexivity].
    destruct (assoc f wasiFunctions) as [[name random]|]; reflexivity.
Qed.

(* C45: accepted imports are exactly the supported ones, except fd_allocate. *)
Theorem import_accepted_exact : forall module field s,
  (exists name random, ResolveFunc module field s = Accept name random) <->
  supported module field s /\ ~ means module field "wasi" "fd_allocate".
Proof.
  intros m f s. rewrite ResolveFunc_decide. unfold decide, supported. setoid_rewrite means_gate_iff. setoid_rewrite means_wasi_iff.
  destruct (meaning_of m f) as [g|g|].
  - assert (ND : ~ MGate g = MWasi "fd_allocate") by discriminate.
    destruct (last_split g) as [[p num]|] eqn:LS.
    + pose proof (proj1 (last_split_spec g p num) LS) as [EG PN].
      assert (UN : forall p' num' n, MGate g = MGate (p' ++ "_" ++ num') -> numeral num' n -> p' = p /\ num' = num).
      { intros p' num' n E H. injection E as E. assert (X : last_split g = Some (p', num')) by (apply last_split_spec; split; [exact E|eapply numeral_plain; eassumption]). rewrite LS in X. injection X as <- <-. auto. }
      pose proof (gate_lib p) as GL. destruct p as [|c p].
      * split; [intros (n & r & H); discriminate|]. intros [[(p' & num' & n & E & I & H & _)|(x & X & _)] _]; [|discriminate].
        destruct (UN _ _ _ E H) as [-> ->]. apply gate_In in I. discriminate.
      * destruct (assoc (String c p) gateFunctions) as [[name random]|]; cbn [fst] in GL.
        -- destruct (assoc (String c p) gate_standard) as [gs|] eqn:GS; [|discriminate]. match type of GL with Some ?a = Some ?b => assert (GL' : a = b) by congruence end. rewrite GL'. pose proof (suffix_ok_spec num) as SO.
           destruct (suffix_ok num).
           ++ destruct (proj1 SO eq_refl) as (n & HN & LN). destruct (sig_eqb s gs) eqn:SG.
              ** apply sig_eqb_eq in SG. subst gs. split; [intros _|eauto]. split; [|exact ND]. left. exists (String c p), num, n. rewrite EG. repeat split; auto. now apply gate_In.
              ** split; [intros (n' & r & H); discriminate|]. intros [[(p' & num' & n' & E & I & H & _)|(x & X & _)] _]; [|discriminate].
                 destruct (UN _ _ _ E H) as [-> ->]. apply gate_In in I. assert (gs = s) by congruence. subst. assert (sig_eqb s s = true) by now apply sig_eqb_eq. congruence.
           ++ split; [intros (n' & r & H); discriminate|]. intros [[(p' & num' & n' & E & I & H & L)|(x & X & _)] _]; [|discriminate].
              destruct (UN _ _ _ E H) as [-> ->]. assert (false = true) by (apply SO; eauto). discriminate.
        -- destruct (assoc (String c p) gate_standard) as [gs|] eqn:GS; [discriminate|]. split; [intros (n' & r & H); discriminate|].
           intros [[(p' & num' & n' & E & I & H & L)|(x & X & _)] _]; [|discriminate]. destruct (UN _ _ _ E H) as [-> ->]. apply gate_In in I. congruence.
    + split; [intros (n' & r & H); discriminate|]. intros [[(p' & num' & n' & E & I & H & L)|(x & X & _)] _]; [|discriminate].
      injection E as E. assert (X : last_split g = Some (p', num')) by (apply last_split_spec; split; [exact E|eapply numeral_plain; eassumption]). congruence.
  - pose proof (wasi_lib g) as WL. destruct (assoc g wasiFunctions) as [[name random]|]; cbn [fst] in WL.
    + destruct (assoc g wasi_standard) as [ws|] eqn:WS; [|discriminate]. match type of WL with Some ?a = Some ?b => assert (WL' : a = b) by congruence end. rewrite WL'. destruct (String.eqb_spec g "fd_allocate") as [->|NA].
      * split; [intros (n' & r & H); discriminate|]. intros [_ H]. now destruct H.
      * destruct (sig_eqb s ws) eqn:SG.
        -- apply sig_eqb_eq in SG. subst ws. split; [intros _|eauto]. split; [right; exists g; split; [reflexivity|now apply wasi_In]|congruence].
        -- split; [intros (n' & r & H); discriminate|]. intros [[(p' & num' & n' & E & _)|(x & X & I)] _]; [discriminate|]. injection X as <-. apply wasi_In in I.
           assert (ws = s) by congruence. subst. assert (sig_eqb s s = true) by now apply sig_eqb_eq. congruence.
    + destruct (assoc g wasi_standard) as [ws|] eqn:WS; [discriminate|]. split; [intros (n' & r & H); discriminate|].
      intros [[(p' & num' & n' & E & _)|(x & X & I)] _]; [discriminate|]. injection X as <-. apply wasi_In in I. congruence.
  - split; [intros (n' & r & H); discriminate|]. intros [[(p' & num' & n' & E & _)|(x & X & I)] _]; discriminate.
Qed.
Print Assumptions import_accepted_exact.
Example import_example :
  ResolveFunc "gate" "io_65536" ([I32; I32; I32; I32; I32; I32; I32], []) = Accept "io" false /\
  ResolveFunc "env" "__gate_fd_99999999999999999999999" ([], [I32]) = Accept "fd" false /\
  ResolveFunc "env" "__wasi_random_get" ([I32; I32], [I32]) = Accept "random_get" true /\
  ResolveFunc "wasi_unstable" "fd_read" ([I32; I32; I32], [I32]) = Reject.
Proof. repeat split. Qed.

(* C45: randomness is provided exactly to programs that import random_get. *)
Theorem import_random_exact : forall module field s name random,
  ResolveFunc module field s = Accept name random -> (random = true <-> means module field "wasi" "random_get").
Proof.
  intros m f s name random. rewrite ResolveFunc_decide. unfold decide. rewrite means_wasi_iff. destruct (meaning_of m f) as [g|g|]; [| |discriminate].
  - destruct (last_split g) as [[[|c p] num]|]; try discriminate. destruct (assoc (String c p) gateFunctions) as [[n r]|] eqn:G; [|discriminate].
    destruct (suffix_ok num); [|discriminate]. destruct (assoc n library); [|discriminate]. destruct (sig_eqb s s0); [|discriminate]. injection 1 as <- <-.
    split; [|discriminate]. intros ->. exfalso. cbn [assoc gateFunctions] in G. destruct (String.eqb (String c p) "fd"); [discriminate|]. destruct (String.eqb (String c p) "io"); discriminate.
  - destruct (assoc g wasiFunctions) as [[n r]|] eqn:G; [|discriminate]. destruct (assoc n library); [|discriminate]. destruct (sig_eqb s s0); [|discriminate]. injection 1 as <- <-.
    assert (T : forall l, forallb (fun e => Bool.eqb (snd (snd e)) (String.eqb (fst e) "random_get")) l = true -> assoc g l = Some (n, r) -> r = String.eqb g "random_get").
    { clear. induction l as [|[k [a b]] t IH]; cbn; [discriminate|]. intros H. apply andb_prop in H. destruct H as [H1 H2]. destruct (String.eqb_spec g k) as [<-|]; [|now apply IH].
      injection 1 as -> ->. now apply Bool.eqb_prop. }
    rewrite (T wasiFunctions eq_refl G). destruct (String.eqb_spec g "random_get") as [->|N]; split; intros H; try congruence; try discriminate.
Qed.
Print Assumptions import_random_exact.

(* C45, refuted: these imports crash the server (string panics are not recovered,
   server.go:1423-1437): fd_allocate, and fd or io with a malformed or too small
   number.  No other import does. *)
Theorem import_crash_refuted : forall module field s,
  ResolveFunc module field s = Crash <->
  means module field "wasi" "fd_allocate" \/
  (exists p num, means module field "gate" (p ++ "_" ++ num) /\ (p = "fd" \/ p = "io") /\ plain num = true /\ ~ exists n, numeral num n /\ 65536 <= n).
Proof.
  intros m f s. rewrite ResolveFunc_decide. unfold decide. setoid_rewrite means_gate_iff. rewrite means_wasi_iff. destruct (meaning_of m f) as [g|g|].
  - assert (GS : forall p, (exists a, assoc p gateFunctions = Some a) <-> p = "fd" \/ p = "io").
    { intros p. cbn [assoc gateFunctions]. destruct (String.eqb_spec p "fd"), (String.eqb_spec p "io"); split; eauto; intros H; try tauto; destruct H; discriminate. }
    assert (UN : forall p' num', MGate g = MGate (p' ++ "_" ++ num') -> plain num' = true -> last_split g = Some (p', num')) by (intros p' num' E H; injection E as E; now apply last_split_spec).
    destruct (last_split g) as [[p num]|] eqn:LS.
    + pose proof (proj1 (last_split_spec g p num) LS) as [EG PN]. destruct p as [|c p].
      * split; [discriminate|]. intros [H|(p' & num' & E & PP & PL & _)]; [discriminate|]. specialize (UN _ _ E PL). injection UN as <- <-. destruct PP; discriminate.
      * pose proof (gate_lib (String c p)) as GL. pose proof (GS (String c p)) as GSp. destruct (assoc (String c p) gateFunctions) as [[n r]|]; cbn [fst] in GL.
        -- pose proof (suffix_ok_spec num) as SO. destruct (suffix_ok num).
           ++ destruct (assoc (String c p) gate_standard); [|discriminate]. match type of GL with Some ?a = Some ?b => assert (GL' : a = b) by congruence end. rewrite GL'. split; [destruct (sig_eqb s s0); discriminate|].
              intros [H|(p' & num' & E & PP & PL & NN)]; [discriminate|]. specialize (UN _ _ E PL). injection UN as <- <-. exfalso. apply NN. now apply SO.
           ++ split; [intros _; right; exists (String c p), num; rewrite EG; repeat split; auto; [apply GSp; eauto|intros H; apply SO in H; discriminate]|reflexivity].
        -- split; [discriminate|]. intros [H|(p' & num' & E & PP & PL & _)]; [discriminate|]. specialize (UN _ _ E PL). injection UN as <- <-. apply GSp in PP. destruct PP; discriminate.
    + split; [discriminate|]. intros [H|(p' & num' & E & PP & PL & _)]; [discriminate|]. specialize (UN _ _ E PL). discriminate.
  - pose proof (wasi_lib g) as WL. destruct (assoc g wasiFunctions) as [[n r]|]; cbn [fst] in WL.
    + destruct (assoc g wasi_standard) as [ws|] eqn:WS; [|discriminate]. match type of WL with Some ?a = Some ?b => assert (WL' : a = b) by congruence end. rewrite WL'. destruct (String.eqb_spec g "fd_allocate") as [->|NA].
      * split; auto.
      * split; [destruct (sig_eqb s ws); discriminate|]. intros [H|(p' & num' & E & _)]; [congruence|discriminate].
    + destruct (assoc g wasi_standard) eqn:WS; [discriminate|]. split; [discriminate|]. intros [H|(p' & num' & E & _)]; [|discriminate]. injection H as ->. discriminate WS.
  - split; [discriminate|]. intros [H|(p' & num' & E & _)]; discriminate.
Qed.
Print Assumptions import_crash_refuted.
Example import_crash_example :
  ResolveFunc "wasi_snapshot_preview1" "fd_allocate" ([I32; I64; I64], [I32]) = Crash /\ ResolveFunc "gate" "io_4096" ([], []) = Crash /\ ResolveFunc "env" "__gate_fd_" ([], []) = Crash.
Proof. repeat split. Qed.
