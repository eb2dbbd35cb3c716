(* BreakArgsProps.v: breakpoints are set where the arguments say (C141). *)
From Verif Require Import Breakpoints BreakArgs BreakpointsProofs.
From Coq Require Import Ascii.

(* ---- Specification ---- *)
(* A path's components, from the root. *)
Definition enter (dir : list str) (p : str) : list str :=
  match p with
  | [] => dir
  | ["."%char] => dir
  | ["."%char; "."%char] => removelast dir
  | _ => dir ++ [p]
  end.
Definition components (s : str) : list str := fold_left enter (parts s) [].
(* The file name f of the debug information is what was given, perhaps in some directory. *)
Definition names_file (given f : str) : Prop :=
  exists dir, components f = dir ++ components given /\ (components given = [] -> dir = []).
(* The place in the debug information with the lowest address for a line of a file; the first instruction of a function. *)
Definition line_start (d : dwarf) (f : str) (n o : Z) : Prop :=
  In (LineEntry f n o) (lines d) /\ forall e, In e (lines d) -> l_file e = f -> l_line e = n -> o <= l_addr e.
Definition first_insn (insns : list Z) (low o : Z) : Prop :=
  In o insns /\ o <> 0 /\ low <= o /\ forall o', In o' insns -> o' <> 0 -> low <= o' -> o <= o'.

Section Spec.
Variable isNumber : str -> bool.
Variables (parseUint atoi : str -> option Z).
(* The offsets that an argument denotes. *)
Inductive denotes (d : option dwarf) (insns : list Z) : str -> Z -> Prop :=
| DOffset s o : ~ In colon s -> s <> [] -> hd zero s <> zero -> isNumber s = true -> parseUint s = Some o -> denotes d insns s o
| DLine d' given t n f o : d = Some d' -> ~ In colon given -> atoi t = Some n -> names_file given f -> line_start d' f n o ->
    denotes d insns (given ++ colon :: t) o
| DFunction d' s e low o : d = Some d' -> ~ In colon s -> s <> [] -> hd zero s <> zero -> isNumber s = false ->
    In e (subs d') -> s_name e = Some s -> lowpc e = Some low -> low <> 0 -> first_insn insns low o -> denotes d insns s o.
End Spec.
(* order lists the debug information's files *)
Definition lists_files (d : option dwarf) (order : list str) : Prop :=
  forall d', d = Some d' -> forall f, In f order <-> exists e, In e (lines d') /\ l_file e = f.
Definition ascending (l : list Z) : Prop := forall i j, (i <= j < length l)%nat -> nth i l 0 <= nth j l 0.

(* ---- Paths ---- *)
Lemma str_eqb_spec a b : str_eqb a b = true <-> a = b.
Proof. unfold str_eqb. destruct (list_eq_dec ascii_dec a b); split; congruence. Qed.
Lemma str_eqb_refl a : str_eqb a a = true. Proof. now apply str_eqb_spec. Qed.
Lemma rev_tl {A} (l : list A) : rev (tl l) = removelast (rev l).
Proof. destruct l as [|x l]; [reflexivity|]. cbn [tl rev]. now rewrite removelast_last. Qed.
Lemma clean_fold l : forall done, clean done l = fold_left enter l (rev done).
Proof.
  induction l as [|p l IH]; intros done; cbn [clean fold_left]; [reflexivity|].
  destruct (str_eqb p []) eqn:E0; [apply str_eqb_spec in E0; subst; cbn [orb]; apply IH|]. cbn [orb].
  destruct (str_eqb p ["."%char]) eqn:E1; [apply str_eqb_spec in E1; subst; apply IH|].
  destruct (str_eqb p ["."%char; "."%char]) eqn:E2; [apply str_eqb_spec in E2; subst; rewrite IH, rev_tl; reflexivity|].
  rewrite IH. cbn [rev]. f_equal. unfold enter.
  assert (N0 : p <> []) by (intros ->; discriminate E0). assert (N1 : p <> ["."%char]) by (intros ->; discriminate E1).
  assert (N2 : p <> ["."%char; "."%char]) by (intros ->; discriminate E2).
  destruct p as [|x [|y [|z p]]]; [destruct (N0 eq_refl)| | |].
  - destruct (ascii_dec x "."%char) as [->|N]; [destruct (N1 eq_refl)|]. destruct x as [[] [] [] [] [] [] [] []]; try reflexivity. destruct (N eq_refl).
  - destruct (ascii_dec x "."%char) as [->|N].
    + destruct (ascii_dec y "."%char) as [->|N']; [destruct (N2 eq_refl)|]. destruct y as [[] [] [] [] [] [] [] []]; try reflexivity. destruct (N' eq_refl).
    + destruct x as [[] [] [] [] [] [] [] []]; try reflexivity. destruct (N eq_refl).
  - destruct x as [[] [] [] [] [] [] [] []]; try reflexivity. destruct y as [[] [] [] [] [] [] [] []]; reflexivity.
Qed.
Definition plain (p : str) : Prop := ~ In slash p /\ p <> [].
Lemma parts_noslash s : Forall (fun p => ~ In slash p) (parts s).
Proof.
  induction s as [|x s IH]; cbn [parts]; [repeat constructor; intros []|].
  destruct (Ascii.eqb_spec x slash) as [->|N]; [constructor; [intros []|exact IH]|].
  destruct (parts s) as [|p ps]; [constructor; [|constructor]; intros [E|[]]; congruence|].
  inversion IH as [|? ? H1 H2]; subst. constructor; [|exact H2]. intros [E|E]; [congruence|exact (H1 E)].
Qed.
Lemma enter_plain p dir : ~ In slash p -> Forall plain dir -> Forall plain (enter dir p).
Proof.
  intros N F.
  assert (R : Forall plain (removelast dir)). { destruct dir as [|a t] using rev_ind; [constructor|]. rewrite removelast_last. apply Forall_app in F. apply F. }
  assert (A : p <> [] -> Forall plain (dir ++ [p])). { intros X. apply Forall_app. split; [exact F|]. constructor; [|constructor]. now split. }
  unfold enter. destruct p as [|x p]; [exact F|]. specialize (A ltac:(discriminate)). destruct x as [[] [] [] [] [] [] [] []]; try exact A.
  destruct p as [|y p]; [exact F|]. destruct y as [[] [] [] [] [] [] [] []]; try exact A. destruct p; [exact R|exact A].
Qed.
Lemma components_plain s : Forall plain (components s).
Proof.
  unfold components. pose proof (parts_noslash s) as H. assert (G : forall l dir, Forall (fun p => ~ In slash p) l -> Forall plain dir -> Forall plain (fold_left enter l dir)).
  { induction l as [|p l IH]; intros dir F D; cbn [fold_left]; [exact D|]. inversion F; subst. apply IH; [assumption|]. now apply enter_plain. }
  apply G; [exact H|constructor].
Qed.
Lemma JoinRoot_eq s : JoinRoot s = rooted (components s).
Proof. unfold JoinRoot, components. now rewrite clean_fold. Qed.
Lemma parts_app a : forall b, parts (a ++ slash :: b) = parts a ++ parts b.
Proof.
  induction a as [|x a IH]; intros b; cbn [app parts]; [now rewrite Ascii.eqb_refl|].
  destruct (Ascii.eqb x slash); [now rewrite IH|]. rewrite IH. destruct (parts a) as [|p ps] eqn:E; [|reflexivity].
  destruct a as [|y a]; cbn in E; [discriminate|]. destruct (Ascii.eqb y slash); [discriminate|]. destruct (parts a); discriminate.
Qed.
Lemma parts_plain p : ~ In slash p -> parts p = [p].
Proof.
  induction p as [|x p IH]; intros N; cbn [parts]; [reflexivity|]. destruct (Ascii.eqb_spec x slash) as [->|_]; [destruct N; now left|].
  rewrite IH; [reflexivity|]. intros I. apply N. now right.
Qed.
Lemma parts_nonnil s : parts s <> [].
Proof. destruct s as [|x s]; cbn; [discriminate|]. destruct (Ascii.eqb x slash); [discriminate|]. destruct (parts s); discriminate. Qed.
Lemma parts_flat l : Forall plain l -> parts (flat_map (fun p => slash :: p) l) = [] :: l.
Proof.
  intros F. destruct l as [|p l]; [reflexivity|]. cbn [flat_map app parts]. rewrite Ascii.eqb_refl. f_equal.
  revert p F. induction l as [|q l IH]; intros p F; inversion F as [|? ? [Hp _] F']; subst; cbn [flat_map].
  - rewrite app_nil_r. now apply parts_plain.
  - change (p ++ (slash :: q) ++ flat_map (fun p0 => slash :: p0) l) with (p ++ slash :: (q ++ flat_map (fun p0 => slash :: p0) l)).
    rewrite parts_app, (parts_plain p Hp). cbn [app]. f_equal. now apply IH.
Qed.
Lemma HasSuffix_spec s x : HasSuffix s x = true <-> exists y, s = y ++ x.
Proof.
  unfold HasSuffix. rewrite andb_true_iff, Nat.leb_le, str_eqb_spec. split.
  - intros [L E]. exists (firstn (length s - length x) s). rewrite <- E at 2. symmetry. apply firstn_skipn.
  - intros [y ->]. rewrite app_length. split; [lia|]. replace (length y + length x - length x)%nat with (length y) by lia.
    rewrite skipn_app, skipn_all, Nat.sub_diag. reflexivity.
Qed.
Lemma rooted_suffix a b : Forall plain a -> Forall plain b -> (HasSuffix (rooted b) (rooted a) = true <-> exists dir, b = dir ++ a /\ (a = [] -> dir = [])).
Proof.
  intros Fa Fb. rewrite HasSuffix_spec. destruct a as [|p a].
  - cbn [rooted]. split.
    + intros [y E]. destruct b as [|q b]; [exists []; auto|]. exfalso.
      assert (L : exists l x, q :: b = l ++ [x]) by (destruct (exists_last (l := q :: b) ltac:(discriminate)) as [l [x X]]; eauto).
      destruct L as (l & x & L). assert (R : rooted (q :: b) = flat_map (fun p => slash :: p) (l ++ [x])) by (rewrite <- L; reflexivity). rewrite R in E.
      rewrite flat_map_app in E. cbn [flat_map app] in E. rewrite app_nil_r in E. rewrite L in Fb. apply Forall_app in Fb as [_ Fx].
      inversion Fx as [|? ? [Nx Ex] _]; subst. destruct (exists_last Ex) as [x' [c X]]. subst x.
      rewrite app_comm_cons, app_assoc in E. apply app_inj_tail in E as [_ E]. apply Nx. rewrite E. apply in_or_app. right. now left.
    + intros [dir [-> D]]. rewrite (D eq_refl). exists []. reflexivity.
  - split.
    + intros [y E]. destruct b as [|q b].
      * cbn [rooted flat_map app] in E. exfalso. inversion Fa as [|? ? [_ Np] _]; subst. destruct p as [|c p]; [exact (Np eq_refl)|].
        apply (f_equal (@length ascii)) in E. rewrite app_length in E. cbn in E. lia.
      * apply (f_equal parts) in E. change (rooted (q :: b)) with (flat_map (fun p => slash :: p) (q :: b)) in E. rewrite (parts_flat _ Fb) in E.
        pose proof (parts_flat _ Fa) as Ea. cbn [rooted flat_map app] in E, Ea. rewrite parts_app in E. cbn [parts] in Ea. rewrite Ascii.eqb_refl in Ea. injection Ea as Ea. rewrite Ea in E.
        destruct (parts y) as [|h t] eqn:Y; [destruct (parts_nonnil _ Y)|]. cbn [app] in E. injection E as _ E. exists t. split; [exact E|discriminate].
    + intros [dir [-> _]]. destruct dir as [|q dir]; [exists []; reflexivity|]. exists (flat_map (fun p => slash :: p) (q :: dir)).
      change (rooted ((q :: dir) ++ p :: a)) with (flat_map (fun p => slash :: p) ((q :: dir) ++ p :: a)). now rewrite flat_map_app.
Qed.
Lemma names_file_spec given f : HasSuffix (JoinRoot f) (JoinRoot given) = true <-> names_file given f.
Proof. rewrite !JoinRoot_eq. apply rooted_suffix; apply components_plain. Qed.

(* ---- Lines ---- *)
Lemma insert_line_in x y l : In y (insert_line x l) <-> y = x \/ In y l.
Proof. induction l as [|z l IH]; cbn [insert_line]; [cbn; intuition|]. destruct (less z x); cbn [In]; [rewrite IH|]; cbn; intuition. Qed.
Lemma sort_lines_in y l : In y (sort_lines l) <-> In y l.
Proof. induction l as [|x l IH]; cbn [sort_lines]; [reflexivity|]. rewrite insert_line_in, IH. cbn. intuition. Qed.
(* of the same line, those with lower addresses come first *)
Inductive by_addr : list line_entry -> Prop :=
| ByNil : by_addr []
| ByCons x l : (forall y, In y l -> less y x = false) -> by_addr l -> by_addr (x :: l).
Lemma less_false_trans x y z : less y x = false -> less z y = false -> less z x = false.
Proof. unfold less. destruct (Z.eqb_spec (l_line y) (l_line x)), (Z.eqb_spec (l_line z) (l_line y)), (Z.eqb_spec (l_line z) (l_line x)); lia. Qed.
Lemma less_asym x y : less x y = true -> less y x = false.
Proof. unfold less. destruct (Z.eqb_spec (l_line x) (l_line y)), (Z.eqb_spec (l_line y) (l_line x)); lia. Qed.
Lemma insert_by x l : by_addr l -> by_addr (insert_line x l).
Proof.
  induction 1 as [|y l H B IH]; cbn [insert_line]; [constructor; [intros ? []|constructor]|].
  destruct (less y x) eqn:E.
  - constructor; [|exact IH]. intros z Z. apply insert_line_in in Z as [->|Z]; [now apply less_asym|now apply H].
  - constructor; [|constructor; auto]. intros z [<-|Z]; [exact E|]. exact (less_false_trans _ _ _ E (H _ Z)).
Qed.
Lemma sort_by l : by_addr (sort_lines l).
Proof. induction l as [|x l IH]; cbn [sort_lines]; [constructor|]. now apply insert_by. Qed.
Lemma find_by l n x : by_addr l -> find (fun x => l_line x =? n) l = Some x -> In x l /\ l_line x = n /\ forall e, In e l -> l_line e = n -> l_addr x <= l_addr e.
Proof.
  induction 1 as [|y l H B IH]; cbn [find]; [discriminate|]. destruct (Z.eqb_spec (l_line y) n) as [E|E].
  - intros X. injection X as <-. split; [now left|]. split; [exact E|]. intros e [<-|I] En; [lia|]. specialize (H _ I). unfold less in H.
    destruct (Z.eqb_spec (l_line e) (l_line y)); lia.
  - intros X. destruct (IH X) as (A & C & D). split; [now right|]. split; [exact C|]. intros e [<-|I] En; [congruence|]. now apply D.
Qed.
Lemma locAddrs_in d f e : In e (locAddrs d f) <-> In e (lines d) /\ l_file e = f.
Proof. unfold locAddrs. rewrite sort_lines_in, filter_In, str_eqb_spec. reflexivity. Qed.
Lemma line_start_spec d f n o :
  In o (match find (fun x => l_line x =? n) (locAddrs d f) with Some x => [l_addr x] | None => [] end) <-> line_start d f n o.
Proof.
  destruct (find _ _) as [x|] eqn:E.
  - apply find_by in E as (A & B & C); [|apply sort_by]. apply locAddrs_in in A as [A Af]. split.
    + intros [<-|[]]. split; [destruct x; cbn in *; now subst|]. intros e I F N. apply C; [now apply locAddrs_in|exact N].
    + intros [I L]. left. apply Z.le_antisymm; [apply (C (LineEntry f n o)); [now apply locAddrs_in|reflexivity]|now apply L].
  - split; [intros []|]. intros [I _]. pose proof (find_none _ _ E (LineEntry f n o)) as X. cbn in X. rewrite Z.eqb_refl in X. discriminate X. now apply locAddrs_in.
Qed.
Lemma location_spec d order given n o : lists_files (Some d) order ->
  (In o (location d order given n) <-> exists f, names_file given f /\ line_start d f n o).
Proof.
  intros LF. unfold location. rewrite in_flat_map. split.
  - intros (f & _ & H). destruct (HasSuffix (JoinRoot f) (JoinRoot given)) eqn:E; [|destruct H]. exists f. split; [now apply names_file_spec|now apply line_start_spec].
  - intros (f & N & L). exists f. split; [apply (LF d eq_refl); exists (LineEntry f n o); split; [apply L|reflexivity]|].
    apply names_file_spec in N. rewrite N. now apply line_start_spec.
Qed.

(* ---- Functions ---- *)
Lemma filter_ascending l : ascending l -> ascending (insnOffs l).
Proof.
  assert (A : forall l, ascending l <-> (forall x t, l = x :: t -> (forall y, In y t -> x <= y) /\ ascending t)).
  { clear. intros l. split.
    - intros H x t ->. split; [|intros i j L; apply (H (S i) (S j)); cbn; lia]. intros y I. apply (In_nth _ _ 0) in I as (n & N & <-). apply (H 0%nat (S n)). cbn. lia.
    - intros H. destruct l as [|x t]; [intros i j L; cbn in L; lia|]. destruct (H x t eq_refl) as [P Q]. intros [|i] [|j] L; cbn in *; try lia; [apply P, nth_In; lia|apply Q; lia]. }
  induction l as [|x l IH]; intros H; [exact H|]. apply (proj1 (A _)) with (x := x) (t := l) in H as [P Q]; [|reflexivity]. specialize (IH Q). cbn [insnOffs filter].
  destruct (x =? 0); cbn [negb]; [exact IH|]. apply A. intros x' t' E. injection E as <- <-. split; [|exact IH]. intros y I. apply filter_In in I. now apply P.
Qed.
Lemma search_first offs low : ascending offs ->
  let i := go_search (length offs) (fun i => nth i offs 0 >=? low) 0 (length offs) in
  (i = length offs /\ forall o, In o offs -> o < low) \/
  ((i < length offs)%nat /\ low <= nth i offs 0 /\ forall o, In o offs -> low <= o -> nth i offs 0 <= o).
Proof.
  intros A. pose proof (go_search_spec (fun i => nth i offs 0 >=? low) (length offs)) as G.
  cbv beta zeta in G. specialize (G ltac:(intros i j L X; specialize (A i j L); lia) (length offs) 0%nat (length offs) ltac:(lia) ltac:(lia) ltac:(lia) ltac:(lia)).
  cbv zeta. set (i := go_search _ _ _ _) in *. destruct G as (R & B & C). destruct (Nat.eq_dec i (length offs)) as [E|E].
  - left. split; [exact E|]. intros o I. apply (In_nth _ _ 0) in I as (n & N & <-). specialize (B n ltac:(lia)). lia.
  - right. split; [lia|]. split; [specialize (C i ltac:(lia)); lia|]. intros o I L. apply (In_nth _ _ 0) in I as (n & N & <-).
    destruct (Nat.lt_ge_cases n i) as [H|H]; [specialize (B n H); lia|]. apply A. lia.
Qed.
Lemma funcAddrs_in d name low : name <> [] -> (In low (funcAddrs d name) <-> exists e, In e (subs d) /\ s_name e = Some name /\ lowpc e = Some low /\ low <> 0).
Proof.
  intros NN. unfold funcAddrs. rewrite in_flat_map. split.
  - intros (e & I & H). destruct (lowpc e) as [off|] eqn:L; [|destruct H]. destruct (s_name e) as [n|] eqn:S; [|destruct H].
    destruct (Z.eqb_spec off 0) as [|Z]; [destruct H|]. destruct (str_eqb n []); [destruct H|]. destruct (str_eqb n name) eqn:E; [|destruct H].
    destruct H as [<-|[]]. apply str_eqb_spec in E. subst. exists e. auto.
  - intros (e & I & S & L & N). exists e. split; [exact I|]. rewrite L, S. destruct (Z.eqb_spec low 0); [contradiction|]. rewrite str_eqb_refl.
    destruct (str_eqb name []) eqn:E; [apply str_eqb_spec in E; contradiction|]. now left.
Qed.
Lemma function_spec d insns name o : ascending insns -> name <> [] ->
  (In o (function d (insnOffs insns) name) <-> exists e low, In e (subs d) /\ s_name e = Some name /\ lowpc e = Some low /\ low <> 0 /\ first_insn insns low o).
Proof.
  intros A NN. apply filter_ascending in A. unfold function. rewrite in_flat_map.
  assert (IO : forall x, In x (insnOffs insns) <-> In x insns /\ x <> 0).
  { intros x. unfold insnOffs. rewrite filter_In. destruct (Z.eqb_spec x 0); cbn; intuition congruence. }
  assert (F : forall low, In o (let i := go_search (length (insnOffs insns)) (fun i => nth i (insnOffs insns) 0 >=? low) 0 (length (insnOffs insns)) in
       if Nat.eqb i (length (insnOffs insns)) then [] else [nth i (insnOffs insns) 0]) <-> first_insn insns low o).
  { intros low. cbv zeta. pose proof (search_first (insnOffs insns) low A) as S. cbv zeta in S. set (i := go_search _ _ _ _) in *.
    destruct S as [[E S]|(L & S1 & S2)].
    - rewrite E, Nat.eqb_refl. split; [intros []|]. intros (I & N & L & _). specialize (S o (proj2 (IO o) (conj I N))). lia.
    - destruct (Nat.eqb_spec i (length (insnOffs insns))); [lia|]. pose proof (nth_In (insnOffs insns) 0 L) as J. apply IO in J as [J1 J2]. split.
      + intros [<-|[]]. repeat split; auto. intros o' I N L'. apply S2; [now apply IO|exact L'].
      + intros (I & N & Lo & M). left. apply Z.le_antisymm; [apply S2; [now apply IO|exact Lo]|now apply M]. }
  split.
  - intros (low & I & H). apply (funcAddrs_in d name low NN) in I as (e & I & S & L & N). exists e, low. split; [exact I|]. split; [exact S|]. split; [exact L|]. split; [exact N|]. exact (proj1 (F low) H).
  - intros (e & low & I & S & L & N & H). exists low. split; [apply funcAddrs_in; eauto|now apply F].
Qed.

(* ---- Arguments ---- *)
Lemma split2_spec s : match split2 s with
  | (a, None) => a = s /\ ~ In colon s
  | (a, Some t) => s = a ++ colon :: t /\ ~ In colon a
  end.
Proof.
  induction s as [|x s IH]; cbn [split2]; [split; [reflexivity|intros []]|].
  destruct (Ascii.eqb_spec x colon) as [->|N]; [split; [reflexivity|intros []]|].
  destruct (split2 s) as [a [t|]]; destruct IH as [E H].
  - split; [now rewrite E|]. intros [X|X]; [congruence|exact (H X)].
  - split; [now rewrite E|]. intros [X|X]; [congruence|exact (H X)].
Qed.
Lemma split_unique (a : str) : forall b t u, ~ In colon a -> ~ In colon b -> a ++ colon :: t = b ++ colon :: u -> a = b /\ t = u.
Proof.
  induction a as [|x a IH]; intros [|y b] t u Na Nb E; cbn [app] in E.
  - injection E as E. auto.
  - injection E as E _. destruct Nb. now left.
  - injection E as E _. destruct Na. now left.
  - injection E as -> E. destruct (IH b t u) as [-> ->]; auto; intros I; [apply Na|apply Nb]; now right.
Qed.

Section Claims.
Variable isNumber : str -> bool.
Variables (parseUint atoi : str -> option Z).
Notation denotes := (denotes isNumber parseUint atoi).
Notation classify := (classify isNumber parseUint atoi).
Notation parse := (parseBreakpoints isNumber parseUint atoi).

Definition meaning (d : dwarf) (order : list str) (insns : list Z) (a : arg) : list Z :=
  match a with AOffset o => [o] | ALocation f n => location d order f n | AFunction s => function d (insnOffs insns) s end.
Lemma classify_meaning d order insns s a o : ascending insns -> lists_files (Some d) order -> classify s = Some a ->
  (In o (meaning d order insns a) <-> denotes (Some d) insns s o).
Proof.
  intros A LF. unfold BreakArgs.classify. pose proof (split2_spec s) as SP. destruct (split2 s) as [file [t|]]; destruct SP as [E NC].
  - destruct (atoi t) as [n|] eqn:AT; [|discriminate]. intros X. injection X as <-. cbn [meaning]. rewrite (location_spec _ _ _ _ _ LF). split.
    + intros (f & NF & L). rewrite E. exact (DLine _ _ _ _ _ _ _ _ _ _ _ eq_refl NC AT NF L).
    + intros D. inversion D as [s0 o0 C|d' given t' n' f o0 Ed C AT' NF L Es|d' s0 e low o0 Ed C]; subst.
      * destruct C. apply in_or_app. right. now left.
      * injection Ed as <-. symmetry in Es. destruct (split_unique _ _ _ _ NC C Es) as [-> ->]. assert (n' = n) by congruence. subst. eauto.
      * destruct C. apply in_or_app. right. now left.
  - destruct s as [|x s]; [discriminate|]. destruct (Ascii.eqb_spec x zero) as [|NZ]; [discriminate|].
    destruct (isNumber (x :: s)) eqn:IN.
    + destruct (parseUint (x :: s)) as [z|] eqn:P; [|discriminate]. intros X. injection X as <-. cbn [meaning]. split.
      * intros [<-|[]]. apply DOffset; auto; discriminate.
      * intros D. inversion D as [s0 o0 C N H I P'|d' given t' n' f o0 Ed C AT' NF L Es|d' s0 e low o0 Ed C N H I]; subst.
        -- left. congruence.
        -- destruct NC. rewrite <- Es. apply in_or_app. right. now left.
        -- congruence.
    + intros X. injection X as <-. cbn [meaning]. rewrite (function_spec d insns (x :: s) o A ltac:(discriminate)). split.
      * intros (e & low & I & S & L & N & F). refine (DFunction _ _ _ _ _ d _ e low _ eq_refl NC _ _ IN I S L N F); [discriminate|exact NZ].
      * intros D. inversion D as [s0 o0 C N H I P'|d' given t' n' f o0 Ed C AT' NF L Es|d' s0 e low o0 Ed C N H I Ie S L NL F]; subst.
        -- congruence.
        -- destruct NC. rewrite <- Es. apply in_or_app. right. now left.
        -- injection Ed as <-. exists e, low. auto.
Qed.
Lemma classify_bad d insns s o : classify s = None -> ~ denotes d insns s o.
Proof.
  unfold BreakArgs.classify. pose proof (split2_spec s) as SP. intros X D.
  inversion D as [s0 o0 C N H I P'|d' given t' n' f o0 Ed C AT' NF L Es|d' s0 e low o0 Ed C N H I Ie S L NL F]; subst;
    match type of X with match split2 ?s with _ => _ end = _ => destruct (split2 s) as [a [t|]]; destruct SP as [E NC] end.
  - destruct C. rewrite E. apply in_or_app. right. now left.
  - destruct s as [|x s]; [now destruct N|]. cbn [hd] in H. destruct (Ascii.eqb_spec x zero); [contradiction|]. rewrite I, P' in X. discriminate.
  - destruct (split_unique _ _ _ _ C NC E) as [-> ->]. rewrite AT' in X. discriminate.
  - apply NC. apply in_or_app. right. now left.
  - destruct C. rewrite E. apply in_or_app. right. now left.
  - destruct s as [|x s]; [now destruct N|]. cbn [hd] in H. destruct (Ascii.eqb_spec x zero); [contradiction|]. rewrite I in X. discriminate.
Qed.

Lemma each_some {A} (f : A -> list Z) l : forall r, each f l = Some r -> r = flat_map f l /\ forall a, In a l -> f a <> [].
Proof.
  induction l as [|a l IH]; intros r H; cbn [each] in H; [injection H as <-; split; [reflexivity|intros ? []]|].
  destruct (f a) as [|x t] eqn:E; [discriminate|]. destruct (each f l) as [r'|]; [|discriminate]. injection H as <-. destruct (IH r' eq_refl) as [-> B].
  cbn [flat_map]. rewrite E. split; [reflexivity|]. intros b [<-|I]; [now rewrite E|now apply B].
Qed.
Lemma each_none {A} (f : A -> list Z) l : each f l = None -> exists a, In a l /\ f a = [].
Proof.
  induction l as [|a l IH]; cbn [each]; [discriminate|]. destruct (f a) as [|x t] eqn:E; [exists a; split; [now left|exact E]|].
  destruct (each f l); [discriminate|]. intros _. destruct (IH eq_refl) as (b & I & B). exists b. split; [now right|exact B].
Qed.
Lemma classify_all_some l : forall r, classify_all classify l = Some r ->
  (forall s, In s l -> exists a, classify s = Some a /\ In a r) /\ (forall a, In a r -> exists s, In s l /\ classify s = Some a).
Proof.
  induction l as [|s l IH]; intros r H; cbn [classify_all] in H; [injection H as <-; split; intros ? []|].
  destruct (classify s) as [a|] eqn:E; [|discriminate]. destruct (classify_all classify l) as [r'|]; [|discriminate]. injection H as <-.
  destruct (IH r' eq_refl) as [P Q]. split.
  - intros x [<-|I]; [exists a; split; [exact E|now left]|]. destruct (P x I) as (b & B & J). exists b. split; [exact B|now right].
  - intros b [<-|I]; [exists s; split; [now left|exact E]|]. destruct (Q b I) as (x & J & B). exists x. split; [now right|exact B].
Qed.
Lemma classify_all_none l : classify_all classify l = None -> exists s, In s l /\ classify s = None.
Proof.
  induction l as [|s l IH]; cbn [classify_all]; [discriminate|]. destruct (classify s) as [a|] eqn:E; [|exists s; split; [now left|exact E]].
  destruct (classify_all classify l); [discriminate|]. intros _. destruct (IH eq_refl) as (x & I & B). exists x. split; [now right|exact B].
Qed.
Lemma in_locations l f n : In (f, n) (locations l) <-> In (ALocation f n) l.
Proof.
  unfold locations. rewrite in_flat_map. split; [|intros I; exists (ALocation f n); split; [exact I|now left]].
  intros (a & I & H). destruct a; try destruct H. + injection H as <- <-. exact I. + destruct H.
Qed.
Lemma in_functions l s : In s (functions l) <-> In (AFunction s) l.
Proof.
  unfold functions. rewrite in_flat_map. split; [|intros I; exists (AFunction s); split; [exact I|now left]].
  intros (a & I & H). destruct a; try destruct H. + subst. exact I. + destruct H.
Qed.
Lemma in_offsets l o : In o (offsets l) <-> In (AOffset o) l.
Proof.
  unfold offsets. rewrite in_flat_map. split; [|intros I; exists (AOffset o); split; [exact I|now left]].
  intros (a & I & H). destruct a; try destruct H. + subst. exact I. + destruct H.
Qed.

(* The cases of a success: every argument is understood; those that aren't offsets need debug information and mean something. *)
Lemma parse_some d order insns args r : parse d order insns args = Some r -> exists l, classify_all classify args = Some l /\
  (forall o, In o r <-> exists a, In a l /\ In o (match d with Some d => meaning d order insns a | None => match a with AOffset o => [o] | _ => [] end end)) /\
  (forall a, In a l -> match d with Some d => meaning d order insns a <> [] | None => exists o, a = AOffset o end).
Proof.
  unfold parseBreakpoints. destruct (classify_all classify args) as [l|]; [|discriminate]. intros H. exists l. split; [reflexivity|].
  assert (NL : locations l = [] -> functions l = [] -> forall a, In a l -> exists o, a = AOffset o).
  { intros L F a I. destruct a as [o|f n|s]; [eauto| |].
    - apply in_locations in I. rewrite L in I. destruct I.
    - apply in_functions in I. rewrite F in I. destruct I. }
  destruct (locations l) as [|p ps] eqn:EL, (functions l) as [|q qs] eqn:EF.
  1: { injection H as <-. specialize (NL eq_refl eq_refl). split.
       - intros o. rewrite in_offsets. split; [intros I; exists (AOffset o); split; [exact I|destruct d; now left]|].
         intros (a & I & J). destruct (NL a I) as [o' ->]. destruct d; destruct J as [<-|[]]; exact I.
       - intros a I. destruct (NL a I) as [o' ->]. destruct d; [discriminate|eauto]. }
  all: destruct d as [d|]; [|discriminate]; destruct (each (fun p => location d order (fst p) (snd p)) _) as [xs|] eqn:E1; [|discriminate];
    destruct (each (function d (insnOffs insns)) _) as [ys|] eqn:E2; [|discriminate]; injection H as <-;
    apply each_some in E1 as [-> N1]; apply each_some in E2 as [-> N2]; rewrite <- ?EL in *; rewrite <- ?EF in *.
  all: split.
  all: try (intros o; rewrite !in_app_iff, !in_flat_map, in_offsets; split;
    [ intros [I|[([f n] & I & J)|(s & I & J)]];
      [ exists (AOffset o); split; [exact I|now left]
      | exists (ALocation f n); split; [now apply in_locations|exact J]
      | exists (AFunction s); split; [now apply in_functions|exact J] ]
    | intros (a & I & J); destruct a as [o'|f n|s]; cbn [meaning] in J;
      [ destruct J as [<-|[]]; left; exact I
      | right; left; exists (f, n); split; [now apply in_locations|exact J]
      | right; right; exists s; split; [now apply in_functions|exact J] ] ]).
  all: intros a I; destruct a as [o'|f n|s]; cbn [meaning];
      [ discriminate
      | apply in_locations in I; exact (N1 (f, n) I)
      | apply in_functions in I; exact (N2 s I) ].
Qed.

(* Breakpoints are at exactly the offsets that the arguments denote, and no argument is ignored, in whatever order the files are gone through. *)
Theorem breakpoints_exact : forall d order insns args r, ascending insns -> lists_files (Some d) order -> parse (Some d) order insns args = Some r ->
  (forall o, In o r <-> exists s, In s args /\ denotes (Some d) insns s o) /\ (forall s, In s args -> exists o, denotes (Some d) insns s o).
Proof.
  intros d order insns args r A LF H. apply parse_some in H as (l & C & R & N). apply classify_all_some in C as [P Q]. split.
  - intros o. rewrite R. split.
    + intros (a & I & J). destruct (Q a I) as (s & Is & Cs). exists s. split; [exact Is|]. now apply (classify_meaning d order insns s a).
    + intros (s & I & D). destruct (P s I) as (a & Cs & Ia). exists a. split; [exact Ia|]. now apply (classify_meaning d order insns s a).
  - intros s I. destruct (P s I) as (a & Cs & Ia). specialize (N a Ia). cbn in N. destruct (meaning d order insns a) as [|o t] eqn:E; [destruct (N eq_refl)|].
    exists o. apply (classify_meaning d order insns s a o A LF Cs). rewrite E. now left.
Qed.
(* Nothing is done only if some argument denotes nothing. *)
Theorem breakpoints_fail : forall d order insns args, ascending insns -> lists_files (Some d) order -> parse (Some d) order insns args = None ->
  exists s, In s args /\ forall o, ~ denotes (Some d) insns s o.
Proof.
  intros d order insns args A LF H. unfold parseBreakpoints in H. destruct (classify_all classify args) as [l|] eqn:C.
  2: { apply classify_all_none in C as (s & I & E). exists s. split; [exact I|]. intros o. now apply classify_bad. }
  apply classify_all_some in C as [P Q].
  assert (K : exists a, In a l /\ meaning d order insns a = []).
  { destruct (locations l) as [|p ps] eqn:EL, (functions l) as [|q qs] eqn:EF; [discriminate| | |];
      (destruct (each (fun p => location d order (fst p) (snd p)) _) as [xs|] eqn:E1;
        [destruct (each (function d (insnOffs insns)) _) as [ys|] eqn:E2; [discriminate|]; apply each_none in E2 as (s & I & E);
         rewrite <- ?EF in I; exists (AFunction s); split; [now apply in_functions|exact E]
        |apply each_none in E1 as ([f n] & I & E); rewrite <- ?EL in I; exists (ALocation f n); split; [now apply in_locations|exact E]]). }
  destruct K as (a & I & E). destruct (Q a I) as (s & Is & Cs). exists s. split; [exact Is|]. intros o D.
  apply (classify_meaning d order insns s a o A LF Cs) in D. rewrite E in D. destruct D.
Qed.
(* A module without debug information can have breakpoints at offsets only. *)
Theorem breakpoints_no_info : forall order insns args r, parse None order insns args = Some r ->
  (forall o, In o r <-> exists s, In s args /\ denotes None insns s o) /\ (forall s, In s args -> exists o, denotes None insns s o).
Proof.
  intros order insns args r H. apply parse_some in H as (l & C & R & N). apply classify_all_some in C as [P Q].
  assert (M : forall s o, classify s = Some (AOffset o) -> forall o', denotes None insns s o' <-> o' = o).
  { intros s o C o'. unfold BreakArgs.classify in C. pose proof (split2_spec s) as SP. destruct (split2 s) as [f [t|]]; destruct SP as [E NC].
    - destruct (atoi t); discriminate.
    - destruct s as [|x s]; [discriminate|]. destruct (Ascii.eqb_spec x zero) as [|NZ]; [discriminate|]. destruct (isNumber (x :: s)) eqn:IN; [|discriminate].
      destruct (parseUint (x :: s)) as [z|] eqn:PU; [|discriminate]. injection C as ->. split.
      + intros D. inversion D; subst; try discriminate. congruence.
      + intros ->. apply DOffset; auto; discriminate. }
  split.
  - intros o. rewrite R. split.
    + intros (a & I & J). destruct (N a I) as [o' ->]. destruct J as [<-|[]]. destruct (Q _ I) as (s & Is & Cs). exists s. split; [exact Is|]. now apply (M s o').
    + intros (s & I & D). destruct (P s I) as (a & Cs & Ia). destruct (N a Ia) as [o' ->]. exists (AOffset o'). split; [exact Ia|].
      left. symmetry. exact (proj1 (M _ _ Cs o) D).
  - intros s I. destruct (P s I) as (a & Cs & Ia). destruct (N a Ia) as [o' ->]. exists o'. now apply (M _ _ Cs).
Qed.
End Claims.
Print Assumptions breakpoints_exact.
Print Assumptions breakpoints_fail.
Print Assumptions breakpoints_no_info.

(* A file in a directory, a function, and an offset. *)
From Coq Require Import String.
Definition S (s : string) : str := list_ascii_of_string s.
Definition ex_dwarf : dwarf := Dwarf [LineEntry (S "src/a/main.c") 10 50; LineEntry (S "src/a/main.c") 10 40; LineEntry (S "src/bmain.c") 10 60] [Subprogram (Some 45) (Some (S "run"))].
Example breakpoints_ex : parseBreakpoints (fun s => str_eqb s (S "7")) (fun _ => Some 7) (fun _ => Some 10) (Some ex_dwarf) [S "src/bmain.c"; S "src/a/main.c"] [0; 40; 50; 60]
  [S "main.c:10"; S "7"; S "run"] = Some [7; 40; 50].
Proof. vm_compute. reflexivity. Qed.
