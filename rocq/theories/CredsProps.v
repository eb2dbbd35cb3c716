(* CredsProps.v: C117. *)
From Verif Require Export CredsSpec.
From Coq Require Import Lia.

(** ** Text *)
Lemma split_on_sep sep a b : ~ In sep a -> split_on sep (a ++ sep :: b) = a :: split_on sep b.
Proof.
  induction a as [|c a IH]; simpl; intro H.
  - now rewrite Z.eqb_refl.
  - destruct (Z.eqb_spec c sep) as [-> | _]; [tauto|]. rewrite IH by tauto. reflexivity.
Qed.
Lemma split_on_none sep a : ~ In sep a -> split_on sep a = [a].
Proof.
  induction a as [|c a IH]; simpl; intro H; [reflexivity|].
  destruct (Z.eqb_spec c sep) as [-> | _]; [tauto|]. now rewrite IH by tauto.
Qed.
Definition plain (s : bytes) : Prop := Forall (fun c => 32 < c < 127) s.
Lemma trim_left_plain s : plain s -> trim_left s = s.
Proof.
  destruct s as [|c s]; [reflexivity|]. intro H. inversion_clear H. unfold trim_left, is_space.
  destruct (Z.leb_spec 9 c), (Z.leb_spec c 13), (Z.eqb_spec c 32); simpl; try reflexivity; lia.
Qed.
Lemma trim_plain s : plain s -> trim_space s = s.
Proof.
  intro H. unfold trim_space. rewrite (trim_left_plain s H), trim_left_plain.
  - apply rev_involutive.
  - apply Forall_rev, H.
Qed.
Lemma name_char_plain s : Forall name_char s -> plain s.
Proof. intro H. eapply Forall_impl; [|exact H]. intros c [A _]; exact A. Qed.
Lemma name_char_notin s c : Forall name_char s -> c = 58 \/ c = 10 -> ~ In c s.
Proof. intros H E I. rewrite Forall_forall in H. apply H in I. destruct I as [[A _] B]. lia. Qed.
Lemma digit_name s : Forall digit s -> Forall name_char s.
Proof. intro H. eapply Forall_impl; [|exact H]. unfold digit, name_char. lia. Qed.
Lemma beqb_spec a : forall b, beqb a b = true <-> a = b.
Proof.
  induction a as [|x a IH]; intros [|y b]; simpl; split; intro H; try reflexivity; try discriminate.
  - apply andb_true_iff in H as [E H]. apply Z.eqb_eq in E as ->. f_equal. now apply IH.
  - inversion H; subst. rewrite Z.eqb_refl. now apply IH.
Qed.
Lemma parse_digits_fold s : forall a, Forall digit s -> parse_digits a s = Some (fold_left (fun a c => 10 * a + (c - 48)) s a).
Proof.
  induction s as [|c s IH]; intros a H; [reflexivity|]. inversion_clear H as [|? ? D F]. unfold digit in D. simpl.
  destruct (Z.leb_spec 48 c); [|lia]. destruct (Z.leb_spec c 57); [|lia]. simpl. now apply IH.
Qed.
Lemma parse_int32_numeral s v : numeral s v -> v < 2 ^ 31 -> parse_int32 s = Some v.
Proof.
  intros (N & F & V) L. unfold parse_int32. destruct s as [|c s]; [congruence|].
  assert (D : digit c) by now inversion F. unfold digit in D.
  destruct (Z.eqb_spec c 43); [lia|]. destruct (Z.eqb_spec c 45); [lia|].
  rewrite parse_digits_fold, V by exact F. destruct (Z.leb_spec (2 ^ 31) v); [lia|reflexivity].
Qed.

(* entries whose fields are printable text without colons *)
Definition entries_ok (l : list (bytes * bytes * bytes)) : Prop :=
  Forall (fun x => Forall name_char (fst (fst x)) /\ Forall name_char (snd (fst x)) /\ Forall name_char (snd x)) l.
Lemma split_lines l : entries_ok l ->
  split_on 10 (subid_file l) = map (fun x => fst (fst x) ++ [58] ++ snd (fst x) ++ [58] ++ snd x) l ++ [[]].
Proof.
  induction l as [|[[u b] c] l IH]; intro H; [reflexivity|]. inversion_clear H as [|? ? [U [B C]] F]. simpl in U, B, C.
  simpl. unfold range_line.
  replace ((u ++ [58] ++ b ++ [58] ++ c ++ [10]) ++ subid_file l) with ((u ++ [58] ++ b ++ [58] ++ c) ++ 10 :: subid_file l).
  2: { simpl. repeat (rewrite <- ?app_assoc; simpl). reflexivity. }
  rewrite split_on_sep.
  - rewrite IH by exact F. reflexivity.
  - rewrite !in_app_iff. simpl. intros [X|[[X|[]]|[X|[[X|[]]|X]]]]; try lia.
    + now apply (name_char_notin u 10 U (or_intror eq_refl)).
    + now apply (name_char_notin b 10 B (or_intror eq_refl)).
    + now apply (name_char_notin c 10 C (or_intror eq_refl)).
Qed.
Lemma split_fields u b c : Forall name_char u -> Forall name_char b -> Forall name_char c ->
  split_on 58 (trim_space (u ++ [58] ++ b ++ [58] ++ c)) = [u; b; c].
Proof.
  intros U B C. rewrite trim_plain.
  - simpl. rewrite split_on_sep, split_on_sep, split_on_none; auto using name_char_notin.
  - unfold plain. rewrite !Forall_app. repeat split; try (apply name_char_plain; assumption); repeat constructor.
Qed.
Lemma parse_file l user base count : entries_ok l -> first_range l user base count -> base < 2 ^ 31 -> count < 2 ^ 31 ->
  parse (Some (subid_file l)) user = Some (SubIds (base + 1) (base + count)).
Proof.
  intros W (pre & b & c & post & -> & P & NB & NC) LB LC. unfold parse. rewrite split_lines by exact W.
  revert W P. induction pre as [|[[u' b'] c'] pre IH]; intros W P; inversion_clear W as [|? ? [U [B C]] F]; simpl in U, B, C;
    cbn [app map fst snd parse_lines].
  - change (user ++ 58 :: b ++ 58 :: c) with (user ++ [58] ++ b ++ [58] ++ c). rewrite split_fields by assumption. rewrite (proj2 (beqb_spec user user) eq_refl). now rewrite (parse_int32_numeral _ _ NB LB), (parse_int32_numeral _ _ NC LC).
  - change (u' ++ 58 :: b' ++ 58 :: c') with (u' ++ [58] ++ b' ++ [58] ++ c'). rewrite split_fields by assumption.
    destruct (beqb u' user) eqn:E.
    + apply beqb_spec in E. exfalso. apply (P (u', b', c')); [now left|exact E].
    + apply IH; [exact F|]. intros y I. apply P. now right.
Qed.

(** ** Ids *)
(* the ids from n on which can be given out *)
Definition free (reserved : list Z) (n e i : Z) : Prop := n <= i < e /\ i <= 0xffffffff /\ ~ (0 < i /\ In i reserved).
Lemma get_id_loop_spec fuel : forall reserved n e, (Z.to_nat (e - n) <= fuel)%nat ->
  match get_id_loop fuel reserved n e with
  | Some (i, m) => free reserved n e i /\ (forall j, free reserved n e j -> i <= j) /\ m = SubIds (i + 1) e
  | None => forall j, ~ free reserved n e j
  end.
Proof.
  induction fuel as [|fuel IH]; intros reserved n e F; simpl.
  - intros j [[A B] _]. lia.
  - destruct (Z.ltb_spec n e) as [L|L]; simpl.
    2: { intros j [[A B] _]. lia. }
    destruct (Z.leb_spec n 4294967295) as [M|M].
    2: { intros j [[A B] [C _]]. lia. }
    destruct (existsb _ _) eqn:X.
    + apply existsb_exists in X as (r & R & X). apply andb_true_iff in X as [X1 X2].
      apply Z.ltb_lt in X1. apply Z.eqb_eq in X2. subst r.
      assert (Q : forall j, free reserved n e j <-> free reserved (n + 1) e j).
      { intro j. unfold free. split; intros (A & B & C); (split; [|now split]); [|lia].
        destruct (Z.eq_dec j n) as [-> | N]; [|lia]. exfalso. apply C. now split. }
      specialize (IH reserved (n + 1) e ltac:(lia)). destruct (get_id_loop fuel reserved (n + 1) e) as [[i m]|].
      * destruct IH as (A & B & C). split; [now apply Q|]. split; [|exact C]. intros j J. apply B, Q, J.
      * intros j J. apply (IH j), Q, J.
    + split; [|split; [|reflexivity]].
      * split; [lia|]. split; [exact M|]. intros [P I].
        assert (Y : existsb (fun r => (0 <? r) && (n =? r)) reserved = true).
        { apply existsb_exists. exists n. split; [exact I|]. rewrite Z.eqb_refl. apply andb_true_iff. split; [now apply Z.ltb_lt|reflexivity]. }
        congruence.
      * intros j [[J _] _]. exact J.
Qed.
Lemma get_id_spec reserved m : match get_id reserved m with
  | Some (i, m') => free reserved (s_next m) (s_end m) i /\ (forall j, free reserved (s_next m) (s_end m) j -> i <= j)
                    /\ m' = SubIds (i + 1) (s_end m)
  | None => forall j, ~ free reserved (s_next m) (s_end m) j end.
Proof. unfold get_id. apply get_id_loop_spec. lia. Qed.

(* ids of one kind: the configuration's (container, executor), the result's *)
Definition chosen (l : list (bytes * bytes * bytes)) (user : bytes) (self c e c' e' : Z) : Prop :=
  (c <> 0 -> c' = c) /\ (e <> 0 -> e' = e) /\
  forall base count, first_range l user base count -> base < 2 ^ 31 -> count < 2 ^ 31 ->
    (c = 0 -> usable base count [self; c; e] c' /\ forall j, usable base count [self; c; e] j -> c' <= j) /\
    (e = 0 -> usable base count [self; c; e; c'] e' /\
              forall j, usable base count [self; c; e; c'] j -> e' <= j).
Lemma numeral_nonneg s v : numeral s v -> 0 <= v.
Proof.
  intros (_ & F & <-).
  assert (G : forall s a, 0 <= a -> Forall digit s -> 0 <= fold_left (fun a c => 10 * a + (c - 48)) s a).
  { clear. induction s as [|c s IH]; intros a A F; [exact A|]. inversion_clear F as [|? ? D G]. unfold digit in D. apply IH; [lia|exact G]. }
  now apply G.
Qed.
Lemma free_usable base count reserved i : 0 <= base -> free reserved (base + 1) (base + count) i <-> usable base count reserved i.
Proof.
  intro B. unfold free, usable. split; intros (X & Y & Z0); (split; [lia|]); (split; [exact Y|]).
  - intro I. apply Z0. split; [lia|exact I].
  - intros [_ I]. now apply Z0.
Qed.
Lemma pick_spec l user self c e c' e' : entries_ok l ->
  pick (Some (subid_file l)) user self c e = Some (c', e') -> chosen l user self c e c' e'.
Proof.
  intros W H. unfold pick in H. unfold chosen.
  destruct (Z.eqb_spec c 0) as [-> | C], (Z.eqb_spec e 0) as [-> | E]; cbn [orb] in H.
  4: { injection H as <- <-. repeat split; intros; congruence. }
  all: destruct (parse _ _) as [m|] eqn:P; [|discriminate].
  - destruct (get_id _ m) as [[i m1]|] eqn:G1; [|discriminate].
    destruct (get_id _ m1) as [[k m2]|] eqn:G2; [|discriminate]. injection H as <- <-.
    split; [congruence|]. split; [congruence|]. intros base count R LB LC. rewrite (parse_file l user base count W R LB LC) in P.
    injection P as <-. assert (B : 0 <= base) by (destruct R as (? & ? & ? & ? & _ & _ & N & _); eapply numeral_nonneg; eassumption).
    pose proof (get_id_spec [self; 0; 0] (SubIds (base + 1) (base + count))) as S1. rewrite G1 in S1. cbn [s_next s_end] in S1.
    destruct S1 as (F1 & M1 & ->). pose proof (get_id_spec [self; 0; 0] (SubIds (i + 1) (base + count))) as S2. rewrite G2 in S2.
    cbn [s_next s_end] in S2. destruct S2 as (F2 & M2 & _). pose proof (proj1 (free_usable _ _ _ _ B) F1) as F1'.
    split; intros _; split.
    + exact F1'.
    + intros j J. apply M1, free_usable; assumption.
    + destruct F1' as (A1 & _). destruct F2 as (A2 & A3 & A4). split; [lia|]. split; [exact A3|]. cbn [In]. intros X.
      apply A4. split; [lia|]. cbn [In]. intuition lia.
    + intros j (J1 & J2 & J3). apply M2. assert (Q : i <= j).
      { apply M1. apply free_usable; [exact B|]. split; [exact J1|]. split; [exact J2|]. cbn [In] in *. tauto. }
      split; [|split; [exact J2|]].
      * cbn [In] in J3. assert (j <> i) by (intro; subst; tauto). lia.
      * intros [_ X]. apply J3. cbn [In] in *. tauto.
  - destruct (get_id _ m) as [[i m1]|] eqn:G1; [|discriminate]. injection H as <- <-.
    split; [congruence|]. split; [congruence|]. intros base count R LB LC. rewrite (parse_file l user base count W R LB LC) in P.
    injection P as <-. assert (B : 0 <= base) by (destruct R as (? & ? & ? & ? & _ & _ & N & _); eapply numeral_nonneg; eassumption).
    pose proof (get_id_spec [self; 0; e] (SubIds (base + 1) (base + count))) as S1. rewrite G1 in S1. cbn [s_next s_end] in S1.
    destruct S1 as (F1 & M1 & ->). split; [|congruence]. intros _. split; [now apply free_usable|].
    intros j J. apply M1, free_usable; assumption.
  - destruct (get_id _ m) as [[i m1]|] eqn:G1; [|discriminate]. injection H as <- <-.
    split; [congruence|]. split; [congruence|]. intros base count R LB LC. rewrite (parse_file l user base count W R LB LC) in P.
    injection P as <-. assert (B : 0 <= base) by (destruct R as (? & ? & ? & ? & _ & _ & N & _); eapply numeral_nonneg; eassumption).
    pose proof (get_id_spec [self; c; 0] (SubIds (base + 1) (base + count))) as S1. rewrite G1 in S1. cbn [s_next s_end] in S1.
    destruct S1 as (F1 & M1 & ->). split; [congruence|]. intros _. split.
    + apply free_usable in F1; [|exact B]. destruct F1 as (X & Y & Z0). split; [exact X|]. split; [exact Y|]. cbn [In] in *. tauto.
    + intros j (J1 & J2 & J3). apply M1, free_usable; [exact B|]. split; [exact J1|]. split; [exact J2|]. cbn [In] in *. tauto.
Qed.

(* C117: the user and group ids of a container: those that were configured, and otherwise the lowest suitable ones of the range
   that subuid(5) assigns to the user: not the range's first id, not the user's own id, and not each other. *)
Theorem container_ids e user lu lg c r :
  e_user e = Some user -> e_subuid e = Some (subid_file lu) -> e_subgid e = Some (subid_file lg) ->
  entries_ok lu -> entries_ok lg -> ParseCreds e c = Some r ->
  chosen lu user (e_uid e) (c_uid (cr_container c)) (c_uid (cr_executor c)) (c_uid (cr_container r)) (c_uid (cr_executor r)) /\
  chosen lg user (e_gid e) (c_gid (cr_container c)) (c_gid (cr_executor c)) (c_gid (cr_container r)) (c_gid (cr_executor r)).
Proof.
  intros U FU FG WU WG H. destruct c as [[cu cg] [eu eg]]. unfold ParseCreds in H. rewrite U, FU, FG in H.
  cbn [cr_container cr_executor c_uid c_gid].
  destruct ((cu =? 0) || (cg =? 0) || (eu =? 0) || (eg =? 0)) eqn:Z0.
  - destruct (pick (Some (subid_file lu)) user (e_uid e) cu eu) as [[cu' eu']|] eqn:PU; [|discriminate].
    destruct (pick (Some (subid_file lg)) user (e_gid e) cg eg) as [[cg' eg']|] eqn:PG; [|discriminate].
    injection H as <-. cbn [cr_container cr_executor c_uid c_gid]. split; eapply pick_spec; eassumption.
  - injection H as <-. cbn [cr_container cr_executor c_uid c_gid].
    apply orb_false_iff in Z0 as [Z0 Z4]. apply orb_false_iff in Z0 as [Z0 Z3]. apply orb_false_iff in Z0 as [Z1 Z2].
    apply Z.eqb_neq in Z1, Z2, Z3, Z4. split; (split; [reflexivity|]; split; [reflexivity|]; intros; split; congruence).
Qed.
Print Assumptions container_ids.

(* C117: what the container's resources belong to isn't what runs the programs, unless that was configured; neither is the host's
   root or the current user, unless that was configured. *)
Definition distinct_ids (self c e c' e' : Z) : Prop :=
  (c = 0 \/ e = 0 -> c' <> e') /\ (c = 0 -> 0 < c' /\ c' <> self) /\ (e = 0 -> 0 < e' /\ e' <> self).
Theorem container_ids_distinct e user lu lg c r bu nu bg ng :
  e_user e = Some user -> e_subuid e = Some (subid_file lu) -> e_subgid e = Some (subid_file lg) ->
  entries_ok lu -> entries_ok lg ->
  first_range lu user bu nu -> bu < 2 ^ 31 -> nu < 2 ^ 31 -> first_range lg user bg ng -> bg < 2 ^ 31 -> ng < 2 ^ 31 ->
  ParseCreds e c = Some r ->
  distinct_ids (e_uid e) (c_uid (cr_container c)) (c_uid (cr_executor c)) (c_uid (cr_container r)) (c_uid (cr_executor r)) /\
  distinct_ids (e_gid e) (c_gid (cr_container c)) (c_gid (cr_executor c)) (c_gid (cr_container r)) (c_gid (cr_executor r)).
Proof.
  intros U FU FG WU WG RU LU1 LU2 RG LG1 LG2 H.
  destruct (container_ids e user lu lg c r U FU FG WU WG H) as [HU HG].
  assert (D : forall l self c e c' e' b n, chosen l user self c e c' e' -> first_range l user b n -> b < 2 ^ 31 -> n < 2 ^ 31 ->
    distinct_ids self c e c' e').
  { clear. intros l self c e c' e' b n (K1 & K2 & K) R L1 L2. specialize (K b n R L1 L2) as [KC KE].
    assert (B : 0 <= b) by (destruct R as (? & ? & ? & ? & _ & _ & N & _); eapply numeral_nonneg; eassumption).
    unfold distinct_ids. repeat split.
    - intros [-> | ->].
      + destruct (KC eq_refl) as [(A1 & A2 & A3) _]. destruct (Z.eq_dec e 0) as [-> | E].
        * destruct (KE eq_refl) as [(B1 & B2 & B3) _]. cbn [In] in B3. intro Q. apply B3. auto.
        * rewrite (K2 E). cbn [In] in A3. intro Q. apply A3. auto.
      + destruct (KE eq_refl) as [(B1 & B2 & B3) _]. cbn [In] in B3. intro Q. apply B3. auto.
    - destruct (KC H) as [(A1 & _) _]. lia.
    - destruct (KC H) as [(_ & _ & A3) _]. cbn [In] in A3. intro Q. apply A3. auto.
    - destruct (KE H) as [(A1 & _) _]. lia.
    - destruct (KE H) as [(_ & _ & A3) _]. cbn [In] in A3. intro Q. apply A3. auto. }
  split; eapply D; eassumption.
Qed.
Print Assumptions container_ids_distinct.

(* C117: it fails only if there aren't enough ids. *)
Definition enough (base count self c e : Z) : Prop :=
  (c = 0 \/ e = 0 -> exists i, usable base count [self; c; e] i /\
    (c = 0 -> e = 0 -> exists j, j <> i /\ usable base count [self; c; e] j)).
Lemma pick_total l user self c e base count : entries_ok l -> first_range l user base count -> base < 2 ^ 31 -> count < 2 ^ 31 ->
  enough base count self c e -> pick (Some (subid_file l)) user self c e <> None.
Proof.
  intros W R LB LC N H. unfold pick in H. unfold enough in N. rewrite (parse_file l user base count W R LB LC) in H.
  assert (B : 0 <= base) by (destruct R as (? & ? & ? & ? & _ & _ & X & _); eapply numeral_nonneg; eassumption).
  destruct (Z.eqb_spec c 0) as [-> | C], (Z.eqb_spec e 0) as [-> | E]; cbn [orb] in H; try discriminate.
  - destruct (N (or_introl eq_refl)) as (i & I & M). destruct (M eq_refl eq_refl) as (j & JI & J).
    pose proof (get_id_spec [self; 0; 0] (SubIds (base + 1) (base + count))) as S1.
    destruct (get_id _ _) as [[k m]|] eqn:G; cbn [s_next s_end] in S1.
    2: { apply (S1 i), free_usable; assumption. }
    destruct S1 as (F1 & M1 & ->). pose proof (get_id_spec [self; 0; 0] (SubIds (k + 1) (base + count))) as S2.
    destruct (get_id _ (SubIds (k + 1) _)) as [[k2 m2]|] eqn:G2; [discriminate|]. cbn [s_next s_end] in S2.
    pose proof (M1 i (proj2 (free_usable _ _ _ _ B) I)) as Q1. pose proof (M1 j (proj2 (free_usable _ _ _ _ B) J)) as Q2.
    apply free_usable in I; [|exact B]. apply free_usable in J; [|exact B].
    destruct (Z.eq_dec i k) as [-> | NE].
    + apply (S2 j). destruct J as (J1 & J2 & J3). split; [lia|now split].
    + apply (S2 i). destruct I as (J1 & J2 & J3). split; [lia|now split].
  - destruct (N (or_introl eq_refl)) as (i & I & _).
    pose proof (get_id_spec [self; 0; e] (SubIds (base + 1) (base + count))) as S1.
    destruct (get_id _ _) as [[k m]|] eqn:G; cbn [s_next s_end] in S1; [discriminate|].
    apply (S1 i), free_usable; assumption.
  - destruct (N (or_intror eq_refl)) as (i & I & _).
    pose proof (get_id_spec [self; c; 0] (SubIds (base + 1) (base + count))) as S1.
    destruct (get_id _ _) as [[k m]|] eqn:G; cbn [s_next s_end] in S1; [discriminate|].
    apply (S1 i), free_usable; assumption.
Qed.
Theorem container_ids_available e user lu lg c bu nu bg ng :
  e_user e = Some user -> e_subuid e = Some (subid_file lu) -> e_subgid e = Some (subid_file lg) ->
  entries_ok lu -> entries_ok lg ->
  first_range lu user bu nu -> bu < 2 ^ 31 -> nu < 2 ^ 31 -> first_range lg user bg ng -> bg < 2 ^ 31 -> ng < 2 ^ 31 ->
  enough bu nu (e_uid e) (c_uid (cr_container c)) (c_uid (cr_executor c)) ->
  enough bg ng (e_gid e) (c_gid (cr_container c)) (c_gid (cr_executor c)) ->
  exists r, ParseCreds e c = Some r.
Proof.
  intros U FU FG WU WG RU LU1 LU2 RG LG1 LG2 NU NG. destruct c as [[cu cg] [eu eg]]. cbn [cr_container cr_executor c_uid c_gid] in *.
  unfold ParseCreds. rewrite U, FU, FG. destruct ((cu =? 0) || (cg =? 0) || (eu =? 0) || (eg =? 0)); [|eauto].
  pose proof (pick_total lu user (e_uid e) cu eu bu nu WU RU LU1 LU2 NU) as PU.
  pose proof (pick_total lg user (e_gid e) cg eg bg ng WG RG LG1 LG2 NG) as PG.
  destruct (pick _ _ (e_uid e) _ _) as [[a b]|]; [|congruence]. destruct (pick _ _ (e_gid e) _ _) as [[a' b']|]; [eauto|congruence].
Qed.
Print Assumptions container_ids_available.

(* C117: without explicit ids, no two ids inside the namespace are mapped to the same id outside, and only one id at a time is
   mapped; if there is only a single id, it is the current user's. *)
Theorem namespace_maps e single r :
  c_uid (cr_container r) <> c_uid (cr_executor r) -> c_gid (cr_container r) <> c_gid (cr_executor r) ->
  let '(um, gm) := id_maps e single r in
  (forall m, m = um \/ m = gm -> NoDup (map (fun x => snd (fst x)) m) /\ NoDup (map (fun x => fst (fst x)) m) /\
     Forall (fun x => snd x = 1 /\ fst (fst x) <> 0) m) /\
  (single = true -> um = [(1, e_uid e, 1)] /\ gm = [(1, e_gid e, 1)]) /\
  (single = false -> um = [(1, c_uid (cr_container r), 1); (2, c_uid (cr_executor r), 1)] /\
                     gm = [(1, c_gid (cr_container r), 1); (2, c_gid (cr_executor r), 1)]).
Proof.
  intros A B. unfold id_maps. destruct single; cbn; split; try (split; [intro; try discriminate; auto|intro; try discriminate; auto]).
  - intros m [-> | ->]; cbn; (split; [repeat constructor; cbn; tauto|]; split; [repeat constructor; cbn; tauto|]);
      repeat constructor; cbn; unfold ContainerCred; lia.
  - intros m [-> | ->]; cbn; unfold ContainerCred, ExecutorCred; (split; [constructor; cbn; [|repeat constructor; cbn; tauto]; intuition congruence|]);
      (split; [constructor; cbn; [|repeat constructor; cbn; tauto]; intuition congruence|]); repeat constructor; cbn; lia.
Qed.
Print Assumptions namespace_maps.

(* A file as in practice: "bob:100000:65536", "alice:165536:65536" *)
Definition t_bob : bytes := [98; 111; 98].
Definition t_alice : bytes := [97; 108; 105; 99; 101].
Definition t_n1 : bytes := [49; 48; 48; 48; 48; 48].
Definition t_n2 : bytes := [54; 53; 53; 51; 54].
Definition t_n3 : bytes := [49; 54; 53; 53; 51; 54].
Definition t_file := [(t_bob, t_n1, t_n2); (t_alice, t_n3, t_n2)].
Definition t_env : env := Env (Some t_alice) 165537 1001 (Some (subid_file t_file)) (Some (subid_file t_file)).
Example container_ids_case : entries_ok t_file /\ first_range t_file t_alice 165536 65536 /\
  enough 165536 65536 165537 0 0 /\
  ParseCreds t_env (Creds (Cred 0 0) (Cred 0 165537)) = Some (Creds (Cred 165538 165538) (Cred 165539 165537)).
Proof.
  split; [|split; [|split]].
  - unfold entries_ok, t_file, t_bob, t_alice, t_n1, t_n2, t_n3, name_char.
    repeat constructor; cbn [fst snd]; try lia; repeat constructor; lia.
  - exists [(t_bob, t_n1, t_n2)], t_n3, t_n2, []. split; [reflexivity|]. split.
    + intros x [<- | []]. discriminate.
    + unfold numeral, t_n3, t_n2, digit. repeat split; try discriminate; repeat constructor; lia.
  - intros _. exists 165538. split; [repeat split; cbn; lia|]. intros _ _. exists 165539. split; [lia|]. repeat split; cbn; lia.
  - vm_compute. reflexivity.
Qed.

(* C117 as a whole doesn't hold: a malformed range is accepted, and it can make the container's user the host's root. *)
Theorem container_ids_positive_refuted :
  ~ (forall e c r, ParseCreds e c = Some r -> c_uid (cr_container c) = 0 -> 0 < c_uid (cr_container r)).
Proof.
  intro H. specialize (H (Env (Some t_bob) 1000 1000 (Some (t_bob ++ [58; 45; 49; 58; 57])) None)
    (Creds (Cred 0 5) (Cred 6 7)) (Creds (Cred 0 5) (Cred 6 7)) eq_refl eq_refl). cbn in H. lia.
Qed.
Print Assumptions container_ids_positive_refuted.
(* C117: ids that are configured are not checked: the executor can be told to run as the owner of the container. *)
Theorem configured_ids_distinct_refuted :
  ~ (forall e c r, ParseCreds e c = Some r -> c_uid (cr_container r) <> c_uid (cr_executor r)).
Proof.
  intro H. exact (H (Env None 1000 1000 None None) (Creds (Cred 5 5) (Cred 5 5)) (Creds (Cred 5 5) (Cred 5 5)) eq_refl eq_refl).
Qed.
Print Assumptions configured_ids_distinct_refuted.
