(* FileIoProps.v: properties C41 (reference counted files) and C42 (writes). *)
From Verif Require Import BaseLemmas ListLemmas FileIo.

(* ---- C41 ---- *)

(* Number of Ref values that refer to file f. *)
Definition uses (s : fsys) (f : nat) : Z :=
  Z.of_nat (length (filter (fun r => match r with Some g => Nat.eqb g f | None => false end) (refs s))).

Definition isf (f : nat) (r : option nat) : bool := match r with Some g => Nat.eqb g f | None => false end.
Definition cnt (f : nat) (l : list (option nat)) : Z := Z.of_nat (length (filter (isf f) l)).
Definition ncl (f : nat) (l : list nat) : nat := count_occ Nat.eq_dec l f.

Lemma upd_length {A} (l : list A) i x : length (upd l i x) = length l.
Proof. revert i. induction l; intros [|i]; cbn; auto. Qed.
Lemma upd_same {A} (l : list A) i x : (i < length l)%nat -> nth_error (upd l i x) i = Some x.
Proof. revert i. induction l; intros [|i] L; cbn in *; try lia; auto. apply IHl. lia. Qed.
Lemma upd_other {A} (l : list A) i j x : i <> j -> nth_error (upd l i x) j = nth_error l j.
Proof. revert i j. induction l; intros [|i] [|j] N; cbn; try congruence; auto. Qed.
Lemma cnt_app f a b : cnt f (a ++ b) = cnt f a + cnt f b.
Proof. unfold cnt. rewrite filter_app, app_length. lia. Qed.
Lemma cnt_upd f l k r : nth_error l k = Some r -> cnt f (upd l k None) = cnt f l - (if isf f r then 1 else 0).
Proof.
  revert k. unfold cnt. induction l as [|h t IH]; intros [|k] N; cbn in N; try discriminate.
  - injection N as ->. cbn [upd filter isf]. destruct (isf f r) eqn:Q; cbn [length]; lia.
  - cbn [upd filter]. specialize (IH k N). destruct (isf f h); cbn [length]; lia.
Qed.
Lemma cnt_le f l : cnt f l <= len l.
Proof. unfold cnt, len. induction l as [|a l IH]; cbn [filter length]; [lia|]. destruct (isf f a); cbn [length]; lia. Qed.

Record FInv (s : fsys) : Prop := {
  fi_cnt : forall f c, nth_error (files s) f = Some c -> count c = cnt f (refs s);
  fi_ref : forall k f, nth_error (refs s) k = Some (Some f) -> (f < length (files s))%nat;
  fi_clo : forall f c, nth_error (files s) f = Some c -> (closes c + ncl f (closing s) = if Z.eqb (count c) 0 then 1 else 0)%nat;
  fi_cin : forall f, In f (closing s) -> (f < length (files s))%nat
}.

Lemma ncl_app f a b : ncl f (a ++ b) = (ncl f a + ncl f b)%nat.
Proof. unfold ncl. apply count_occ_app. Qed.

Lemma cnt_zero_notin f l : cnt f l = 0 -> forall k, nth_error l k <> Some (Some f).
Proof.
  unfold cnt. intros H k N. apply nth_error_In in N.
  assert (I : In (Some f) (filter (isf f) l)) by (apply filter_In; split; [assumption|cbn; apply Nat.eqb_refl]).
  destruct (filter (isf f) l); [destruct I|cbn in H; lia].
Qed.

Lemma s32_id x : -1 <= x < 2 ^ 31 -> s32 x = x.
Proof. intros H. unfold s32. rewrite Z.mod_small; lia. Qed.

Lemma must_ref_ok s k f : FInv s -> len (refs s) < 2 ^ 31 - 1 -> nth_error (refs s) k = Some (Some f) ->
  exists s', must_ref s f = Ok s' /\ FInv s'.
Proof.
  intros I L N. pose proof (fi_ref _ I k f N) as B. unfold must_ref. destruct (nth_error (files s) f) as [c|] eqn:F; [|apply nth_error_None in F; lia].
  pose proof (fi_cnt _ I _ _ F) as C. pose proof (cnt_le f (refs s)) as CL.
  assert (P : 1 <= count c). { pose proof (cnt_zero_notin f (refs s)) as Z0. assert (cnt f (refs s) >= 0) by (unfold cnt; lia). destruct (Z.eq_dec (cnt f (refs s)) 0) as [E|E]; [exfalso; exact (Z0 E k N)|lia]. }
  rewrite s32_id by lia. replace (count c + 1 <=? 1) with false by lia. eexists. split; [reflexivity|].
  constructor; cbn [files refs closing].
  - intros g d G. rewrite cnt_app. destruct (Nat.eq_dec f g) as [<-|D].
    + rewrite upd_same in G by lia. injection G as <-. cbn [count]. unfold cnt at 2. cbn [filter isf]. rewrite Nat.eqb_refl. cbn. lia.
    + rewrite upd_other in G by assumption. rewrite (fi_cnt _ I _ _ G). unfold cnt at 3. cbn [filter isf]. replace (Nat.eqb f g) with false by (symmetry; now apply Nat.eqb_neq). cbn. lia.
  - intros j g G. rewrite upd_length. destruct (Nat.ltb_spec j (length (refs s))) as [X|X].
    + rewrite nth_error_app1 in G by assumption. exact (fi_ref _ I _ _ G).
    + rewrite nth_error_app2 in G by assumption. destruct (j - length (refs s))%nat as [|m]; cbn in G; [injection G as <-; lia|destruct m; discriminate].
  - intros g d G. destruct (Nat.eq_dec f g) as [<-|D].
    + rewrite upd_same in G by lia. injection G as <-. cbn [count closes]. pose proof (fi_clo _ I _ _ F) as Q. replace (count c =? 0) with false in Q by lia. replace (count c + 1 =? 0) with false by lia. exact Q.
    + rewrite upd_other in G by assumption. exact (fi_clo _ I _ _ G).
  - intros g G. rewrite upd_length. exact (fi_cin _ I _ G).
Qed.

Lemma FInv_step s o s' : FInv s -> len (refs s) < 2 ^ 31 - 1 -> fstep s o = Ok s' -> FInv s'.
Proof.
  intros I L E. destruct o as [|k|k|k|j]; cbn [fstep] in E.
  - injection E as <-. assert (Fr : cnt (length (files s)) (refs s) = 0).
    { destruct (Z.eq_dec (cnt (length (files s)) (refs s)) 0) as [|D]; [assumption|exfalso]. unfold cnt in D.
      destruct (filter (isf (length (files s))) (refs s)) as [|r t] eqn:Q; [cbn in D; lia|].
      assert (X : In r (filter (isf (length (files s))) (refs s))) by (rewrite Q; now left). apply filter_In in X. destruct X as [X Y].
      destruct r as [g|]; [|discriminate]. cbn in Y. apply Nat.eqb_eq in Y. subst g. apply In_nth_error in X. destruct X as [k X]. apply (fi_ref _ I) in X. lia. }
    assert (Cn : ncl (length (files s)) (closing s) = O).
    { unfold ncl. apply count_occ_not_In. intros X. apply (fi_cin _ I) in X. lia. }
    constructor; cbn [files refs closing].
    + intros g d G. rewrite cnt_app. destruct (Nat.ltb_spec g (length (files s))) as [X|X].
      * rewrite nth_error_app1 in G by assumption. rewrite (fi_cnt _ I _ _ G). unfold cnt at 3. cbn [filter isf]. replace (Nat.eqb (length (files s)) g) with false by (symmetry; apply Nat.eqb_neq; lia). cbn. lia.
      * rewrite nth_error_app2 in G by assumption. destruct (g - length (files s))%nat as [|m] eqn:M; cbn in G; [|destruct m; discriminate].
        injection G as <-. cbn [count]. replace g with (length (files s)) by lia. rewrite Fr. unfold cnt. cbn [filter isf]. rewrite Nat.eqb_refl. reflexivity.
    + intros j g G. rewrite app_length. cbn [length]. destruct (Nat.ltb_spec j (length (refs s))) as [X|X].
      * rewrite nth_error_app1 in G by assumption. pose proof (fi_ref _ I _ _ G). lia.
      * rewrite nth_error_app2 in G by assumption. destruct (j - length (refs s))%nat as [|m]; cbn in G; [injection G as <-; lia|destruct m; discriminate].
    + intros g d G. destruct (Nat.ltb_spec g (length (files s))) as [X|X].
      * rewrite nth_error_app1 in G by assumption. exact (fi_clo _ I _ _ G).
      * rewrite nth_error_app2 in G by assumption. destruct (g - length (files s))%nat as [|m] eqn:M; cbn in G; [|destruct m; discriminate].
        injection G as <-. cbn. replace g with (length (files s)) by lia. exact Cn.
    + intros g G. rewrite app_length. pose proof (fi_cin _ I _ G). lia.
  - destruct (nth_error (refs s) k) as [[f|]|] eqn:N; try discriminate.
    destruct (must_ref_ok s k f I L N) as (s1 & E1 & I1). congruence.
  - destruct (nth_error (refs s) k) as [[f|]|] eqn:N; try discriminate.
    + destruct (must_ref_ok s k f I L N) as (s1 & E1 & I1). congruence.
    + injection E as <-. constructor; cbn [files refs closing]; try apply I.
      * intros f c G. rewrite cnt_app. rewrite (fi_cnt _ I _ _ G). unfold cnt at 3. cbn. lia.
      * intros j g G. destruct (Nat.ltb_spec j (length (refs s))) as [X|X].
        -- rewrite nth_error_app1 in G by assumption. exact (fi_ref _ I _ _ G).
        -- rewrite nth_error_app2 in G by assumption. destruct (j - length (refs s))%nat as [|m]; cbn in G; [discriminate|destruct m; discriminate].
  - destruct (nth_error (refs s) k) as [[f|]|] eqn:N; try discriminate; [|injection E as <-; exact I].
    destruct (nth_error (files s) f) as [c|] eqn:F; [|discriminate].
    pose proof (fi_cnt _ I _ _ F) as C. pose proof (cnt_le f (refs s)) as CL.
    assert (P : 1 <= count c). { pose proof (cnt_zero_notin f (refs s)) as Z0. assert (cnt f (refs s) >= 0) by (unfold cnt; lia). destruct (Z.eq_dec (cnt f (refs s)) 0) as [Q|Q]; [exfalso; exact (Z0 Q k N)|lia]. }
    pose proof (fi_ref _ I _ _ N) as B. rewrite s32_id in E by lia. replace (count c - 1 <? 0) with false in E by lia. injection E as <-.
    constructor; cbn [files refs closing].
    + intros g d G. rewrite (cnt_upd _ _ _ _ N). destruct (Nat.eq_dec f g) as [<-|D].
      * rewrite upd_same in G by lia. injection G as <-. cbn [count isf]. rewrite Nat.eqb_refl. lia.
      * rewrite upd_other in G by assumption. rewrite (fi_cnt _ I _ _ G). cbn [isf]. replace (Nat.eqb f g) with false by (symmetry; now apply Nat.eqb_neq). lia.
    + intros j g G. rewrite upd_length. destruct (Nat.eq_dec k j) as [<-|D].
      * rewrite upd_same in G by (apply nth_error_Some; congruence). discriminate.
      * rewrite upd_other in G by assumption. exact (fi_ref _ I _ _ G).
    + intros g d G. destruct (Nat.eq_dec f g) as [<-|D].
      * rewrite upd_same in G by lia. injection G as <-. cbn [count closes]. pose proof (fi_clo _ I _ _ F) as Q. replace (count c =? 0) with false in Q by lia.
        destruct (count c - 1 =? 0) eqn:Z0; [|exact Q]. rewrite ncl_app. unfold ncl at 2. cbn. destruct (Nat.eq_dec f f); [lia|congruence].
      * rewrite upd_other in G by assumption. pose proof (fi_clo _ I _ _ G) as Q. destruct (count c - 1 =? 0); [|exact Q]. rewrite ncl_app. unfold ncl at 2. cbn. destruct (Nat.eq_dec f g); [congruence|lia].
    + intros g G. rewrite upd_length. destruct (count c - 1 =? 0); [|exact (fi_cin _ I _ G)]. apply in_app_iff in G. destruct G as [G|[<-|[]]]; [exact (fi_cin _ I _ G)|lia].
  - destruct (nth_error (closing s) j) as [f|] eqn:N; [|discriminate].
    pose proof (fi_cin _ I _ (nth_error_In _ _ N)) as B. destruct (nth_error (files s) f) as [c|] eqn:F; [|discriminate].
    apply (f_equal (fun r => match r with Ok x => x | _ => s end)) in E. cbv beta iota in E. subst s'.
    assert (EL : closing s = firstn j (closing s) ++ f :: skipn (S j) (closing s)).
    { clear - N. revert j N. induction (closing s) as [|h t IH]; intros [|j] N; cbn in *; try discriminate; [now injection N as ->|]. now rewrite <- IH. }
    assert (NC : forall g, ncl g (closing s) = ((if Nat.eq_dec f g then 1 else 0) + ncl g (firstn j (closing s) ++ skipn (S j) (closing s)))%nat).
    { intros g. rewrite EL at 1. rewrite !ncl_app. unfold ncl. cbn [count_occ]. destruct (Nat.eq_dec f g); lia. }
    constructor; cbn [files refs closing].
    + intros g d G. destruct (Nat.eq_dec f g) as [<-|D].
      * rewrite upd_same in G by lia. injection G as <-. exact (fi_cnt _ I _ _ F).
      * rewrite upd_other in G by assumption. exact (fi_cnt _ I _ _ G).
    + intros k g G. rewrite upd_length. exact (fi_ref _ I _ _ G).
    + intros g d G. specialize (NC g). revert NC. destruct (Nat.eq_dec f g) as [<-|D].
      * intros NC. rewrite upd_same in G by lia. injection G as <-. cbn [count closes]. pose proof (fi_clo _ I _ _ F). lia.
      * intros NC. rewrite upd_other in G by assumption. pose proof (fi_clo _ I _ _ G). lia.
    + intros g G. rewrite upd_length. apply (fi_cin _ I). rewrite EL. apply in_app_iff in G. apply in_app_iff. destruct G; [now left|right; now right].
Qed.

Lemma FInv_run os : forall s s', FInv s -> len (refs s) + len os < 2 ^ 31 - 1 -> frun s os = Ok s' -> FInv s'.
Proof.
  induction os as [|o t IH]; intros s s' I L R; cbn [frun] in R; [now injection R as <-|].
  destruct (fstep s o) as [s1| |] eqn:E; try discriminate. cbn [bind] in R. rewrite len_cons in L. pose proof (len_nonneg t).
  apply (IH s1); [eapply FInv_step; [exact I|lia|exact E]| |exact R].
  assert (len (refs s1) <= len (refs s) + 1); [|lia]. clear - E. unfold len. destruct o as [|k|k|k|j]; cbn [fstep] in E.
  - injection E as <-; cbn [refs]; rewrite app_length; cbn [length]; lia.
  - destruct (nth_error _ _) as [[f|]|]; try discriminate. unfold must_ref in E. destruct (nth_error _ _); [|discriminate]. destruct (_ <=? _); [discriminate|]. injection E as <-; cbn [refs]; rewrite app_length; cbn [length]; lia.
  - destruct (nth_error _ _) as [[f|]|]; try discriminate; [unfold must_ref in E; destruct (nth_error _ _); [|discriminate]; destruct (_ <=? _); [discriminate|]|]; injection E as <-; cbn [refs]; rewrite app_length; cbn [length]; lia.
  - destruct (nth_error (refs s) k) as [[f|]|]; try discriminate; [|injection E as <-; lia]. destruct (nth_error _ _); [|discriminate]. destruct (_ <? _); [discriminate|]. injection E as <-; cbn [refs]; rewrite upd_length; lia.
  - destruct (nth_error _ _); [|discriminate]. destruct (nth_error _ _); [|discriminate]. injection E as <-; cbn [refs]; lia.
Qed.
Lemma FInv_start : FInv fstart.
Proof. constructor; cbn; intros; try (destruct f; discriminate); try (destruct k; discriminate); tauto. Qed.

Definition freached (os : list fop) (s : fsys) : Prop := len os < 2 ^ 31 - 1 /\ frun fstart os = Ok s.
Lemma freached_inv os s : freached os s -> FInv s.
Proof. intros [L R]. apply (FInv_run os fstart s FInv_start); [cbn; lia|exact R]. Qed.

Example freached_example : exists s, freached [FOwn; FMustRef 0; FRef 1; FUnref 0; FUnref 0; FUnref 2; FOwn; FUnref 1; FClose 0; FUnref 3] s /\
  map closes (files s) = [1%nat; 0%nat] /\ map count (files s) = [0; 0] /\ closing s = [1%nat].
Proof. eexists. split; [split; [cbn; lia|vm_compute; reflexivity]|]. repeat split. Qed.

(* C41: as long as a reference to a file exists, it is not closed, nor about to be. *)
Theorem referenced_file_open : forall os s k f,
  freached os s -> nth_error (refs s) k = Some (Some f) ->
  exists c, nth_error (files s) f = Some c /\ closes c = O /\ ~ In f (closing s).
Proof.
  intros os s k f H N. pose proof (freached_inv _ _ H) as I. pose proof (fi_ref _ I _ _ N) as B.
  destruct (nth_error (files s) f) as [c|] eqn:F; [|apply nth_error_None in F; lia]. exists c. split; [reflexivity|].
  pose proof (fi_clo _ I _ _ F) as Q. pose proof (fi_cnt _ I _ _ F) as C.
  assert (count c <> 0). { intros Z0. rewrite C in Z0. exact (cnt_zero_notin _ _ Z0 _ N). }
  replace (count c =? 0) with false in Q by lia. split; [lia|]. intros X. unfold ncl in Q. apply (count_occ_In Nat.eq_dec) in X. lia.
Qed.
Print Assumptions referenced_file_open.

(* C41: once there are no references to a file, it has been closed, or is about
   to be closed, by exactly one Unref; no file is closed twice. *)
Theorem unreferenced_file_closed_once : forall os s f c,
  freached os s -> nth_error (files s) f = Some c ->
  (closes c <= 1)%nat /\
  ((forall k, nth_error (refs s) k <> Some (Some f)) -> (closes c + count_occ Nat.eq_dec (closing s) f = 1)%nat).
Proof.
  intros os s f c H F. pose proof (freached_inv _ _ H) as I. pose proof (fi_clo _ I _ _ F) as Q. split.
  - destruct (count c =? 0); lia.
  - intros N. pose proof (fi_cnt _ I _ _ F) as C. assert (Z0 : cnt f (refs s) = 0).
    { unfold cnt. destruct (filter (isf f) (refs s)) as [|r t] eqn:E; [reflexivity|exfalso].
      assert (X : In r (filter (isf f) (refs s))) by (rewrite E; now left). apply filter_In in X. destruct X as [X Y]. destruct r as [g|]; [|discriminate].
      cbn in Y. apply Nat.eqb_eq in Y. subst g. apply In_nth_error in X. destruct X as [k X]. exact (N k X). }
    rewrite C, Z0 in Q. exact Q.
Qed.
Print Assumptions unreferenced_file_closed_once.

(* C41: no use of the API panics, except MustRef of a zero Ref. *)
Theorem fileref_no_panic : forall os s o,
  freached os s -> fstep s o = Panic -> exists k, o = FMustRef k /\ nth_error (refs s) k = Some None.
Proof.
  intros os s o H E. pose proof (freached_inv _ _ H) as I.
  assert (L : len (refs s) < 2 ^ 31 - 1).
  { destruct H as [L R]. clear - L R. assert (G : forall os s s', frun s os = Ok s' -> len (refs s') <= len (refs s) + len os); [|specialize (G _ _ _ R); cbn in G; lia].
    clear. induction os as [|o t IH]; intros s s' R; cbn [frun] in R; [injection R as <-; unfold len; cbn; lia|].
    destruct (fstep s o) as [s1| |] eqn:E; try discriminate. cbn [bind] in R. specialize (IH _ _ R). rewrite len_cons.
    assert (len (refs s1) <= len (refs s) + 1); [|lia]. clear - E. unfold len. destruct o as [|k|k|k|j]; cbn [fstep] in E.
    - injection E as <-; cbn [refs]; rewrite app_length; cbn [length]; lia.
    - destruct (nth_error _ _) as [[f|]|]; try discriminate. unfold must_ref in E. destruct (nth_error _ _); [|discriminate]. destruct (_ <=? _); [discriminate|]. injection E as <-; cbn [refs]; rewrite app_length; cbn [length]; lia.
    - destruct (nth_error _ _) as [[f|]|]; try discriminate; [unfold must_ref in E; destruct (nth_error _ _); [|discriminate]; destruct (_ <=? _); [discriminate|]|]; injection E as <-; cbn [refs]; rewrite app_length; cbn [length]; lia.
    - destruct (nth_error (refs s) k) as [[f|]|]; try discriminate; [|injection E as <-; lia]. destruct (nth_error _ _); [|discriminate]. destruct (_ <? _); [discriminate|]. injection E as <-; cbn [refs]; rewrite upd_length; lia.
    - destruct (nth_error _ _); [|discriminate]. destruct (nth_error _ _); [|discriminate]. injection E as <-; cbn [refs]; lia. }
  destruct o as [|k|k|k|j]; cbn [fstep] in E.
  - discriminate.
  - destruct (nth_error (refs s) k) as [[f|]|] eqn:N; try discriminate; [|eauto]. destruct (must_ref_ok s k f I L N) as (s1 & E1 & _). congruence.
  - destruct (nth_error (refs s) k) as [[f|]|] eqn:N; try discriminate. destruct (must_ref_ok s k f I L N) as (s1 & E1 & _). congruence.
  - destruct (nth_error (refs s) k) as [[f|]|] eqn:N; try discriminate. pose proof (fi_ref _ I _ _ N) as B.
    destruct (nth_error (files s) f) as [c|] eqn:F; [|apply nth_error_None in F; lia]. exfalso.
    pose proof (fi_cnt _ I _ _ F) as C. pose proof (cnt_le f (refs s)) as CL.
    assert (P : 1 <= count c). { pose proof (cnt_zero_notin f (refs s)) as Z0. assert (cnt f (refs s) >= 0) by (unfold cnt; lia). destruct (Z.eq_dec (cnt f (refs s)) 0) as [Q|Q]; [exfalso; exact (Z0 Q k N)|lia]. }
    rewrite s32_id in E by lia. destruct (Z.ltb_spec (count c - 1) 0); [lia|discriminate].
  - destruct (nth_error (closing s) j) as [f|] eqn:N; [|discriminate]. pose proof (fi_cin _ I _ (nth_error_In _ _ N)) as B.
    destruct (nth_error (files s) f) as [c|] eqn:F; [discriminate|apply nth_error_None in F; lia].
Qed.
Print Assumptions fileref_no_panic.

(* ---- C42 ---- *)

(* The bytes of a file after writing b at off. *)
Definition fwrite (content : Z -> Z) (off : Z) (b : bytes) : Z -> Z :=
  fun i => if (off <=? i) && (i <? off + len b) then nth (Z.to_nat (i - off)) b 0 else content i.
Definition fwrites (content : Z -> Z) (w : list chunk) : Z -> Z := fold_left (fun c x => fwrite c (fst x) (snd x)) w content.

(* Chunks one after another from off. *)
Fixpoint placed (off : Z) (w : list chunk) : Prop :=
  match w with [] => True | (o, b) :: t => o = off /\ b <> [] /\ placed (off + len b) t end.
Definition written (w : list chunk) : bytes := concat (map snd w).

Lemma fwrites_placed w : forall content off i, placed off w -> fwrites content w i = fwrite content off (written w) i.
Proof.
  induction w as [|[o b] t IH]; intros content off i P; cbn [placed] in P.
  - unfold written, fwrite. cbn. destruct (_ && _) eqn:Q; [lia|reflexivity].
  - destruct P as (-> & NB & P). unfold fwrites. cbn [fold_left fst snd]. fold (fwrites (fwrite content off b) t). rewrite (IH _ _ _ P).
    unfold written. cbn [map snd concat]. fold (written t). unfold fwrite. rewrite len_app. pose proof (len_nonneg b). pose proof (len_nonneg (written t)).
    destruct ((off + len b <=? i) && (i <? off + len b + len (written t))) eqn:Q1.
    + replace ((off <=? i) && (i <? off + (len b + len (written t)))) with true by lia. rewrite app_nth2 by (unfold len in *; lia). f_equal. unfold len in *. lia.
    + destruct ((off <=? i) && (i <? off + len b)) eqn:Q2.
      * replace ((off <=? i) && (i <? off + (len b + len (written t)))) with true by lia. rewrite app_nth1 by (unfold len in *; lia). reflexivity.
      * replace ((off <=? i) && (i <? off + (len b + len (written t)))) with false by lia. reflexivity.
Qed.

Lemma firstn_min_nil (b : bytes) k : Nat.eqb (Nat.min k (length b)) 0 = false -> firstn (Nat.min k (length b)) b <> [].
Proof. intros H E. apply (f_equal (@length Z)) in E. rewrite firstn_length in E. cbn in E. lia. Qed.

Lemma write_at_spec ks : forall b off n o n' w, write_at ks b off n = (o, n', w) ->
  placed off w /\ o <> WPanic /\ n' = n + len (written w) /\ exists rest, b = written w ++ rest /\ (o = WNil <-> rest = []).
Proof.
  induction ks as [|k ks IH]; intros b off n o n' w E.
  - destruct b as [|x t]; cbn in E; injection E as <- <- <-; cbn; (split; [exact I|]; split; [discriminate|]; split; [lia|]); eexists; (split; [reflexivity|]); split; congruence.
  - destruct b as [|x t].
    { cbn in E. injection E as <- <- <-. cbn. split; [exact I|]. split; [discriminate|]. split; [lia|]. exists []. tauto. }
    set (b := x :: t) in *. change (write_at (k :: ks) b off n) with (match k with
      | KCount k => let k := Nat.min k (length b) in if Nat.eqb k 0 then (WErr, n, []) else let ' (o, n', w) := write_at ks (skipn k b) (off + Z.of_nat k) (n + Z.of_nat k) in (o, n', (off, firstn k b) :: w)
      | KAgain => write_at ks b off n | KFail => (WErr, n, []) end) in E.
    assert (NEb : b <> []) by discriminate. clearbody b.
    destruct k as [k| |].
    + cbn zeta in E. destruct (Nat.eqb (Nat.min k (length b)) 0) eqn:Q.
      { injection E as <- <- <-. cbn. split; [exact I|]. split; [discriminate|]. split; [lia|]. exists b. split; [reflexivity|]. split; [discriminate|]. intros; contradiction. }
      pose proof (firstn_min_nil b k Q) as NB.
      destruct (write_at ks (skipn (Nat.min k (length b)) b) (off + Z.of_nat (Nat.min k (length b))) (n + Z.of_nat (Nat.min k (length b)))) as [[o1 n1] w1] eqn:R.
      injection E as <- <- <-. destruct (IH _ _ _ _ _ _ R) as (P & NP & N1 & rest & E1 & W).
      assert (LF : len (firstn (Nat.min k (length b)) b) = Z.of_nat (Nat.min k (length b))) by (unfold len; rewrite firstn_length; lia).
      split; [cbn [placed]; rewrite LF; auto|]. split; [exact NP|]. unfold written in *. cbn [map snd concat]. rewrite len_app, LF. split; [lia|].
      exists rest. split; [|exact W]. rewrite <- app_assoc, <- E1. symmetry. apply firstn_skipn.
    + exact (IH _ _ _ _ _ _ E).
    + injection E as <- <- <-. cbn. split; [exact I|]. split; [discriminate|]. split; [lia|]. exists b. split; [reflexivity|]. split; [discriminate|]. intros; contradiction.
Qed.

(* C42: whatever the system calls return, WriteAt writes a prefix of the buffer
   at the offset, and the number of bytes it returns is that prefix's length; it
   returns nil exactly if that is all of it. *)
Theorem write_at_exact : forall ks b offset o n w,
  write_at ks b offset 0 = (o, n, w) ->
  exists rest, b = written w ++ rest /\ n = len (written w) /\ (o = WNil <-> rest = []) /\ o <> WPanic /\
    forall content i, fwrites content w i = fwrite content offset (written w) i.
Proof.
  intros ks b off o n w E. destruct (write_at_spec _ _ _ _ _ _ _ E) as (P & NP & N & rest & B & W).
  exists rest. repeat split; auto; try apply W. intros. now apply fwrites_placed.
Qed.
Print Assumptions write_at_exact.

Lemma advance_spec bs : forall n, (n <= length (concat bs))%nat -> bs <> [] ->
  match advance bs n with
  | None => False
  | Some None => n = length (concat bs)
  | Some (Some bs') => concat bs' = skipn n (concat bs) /\ bs' <> []
  end.
Proof.
  induction bs as [|b t IH]; intros n L NE; [congruence|]. cbn [advance concat] in *. rewrite app_length in L.
  destruct (Nat.leb_spec (length b) n) as [Q|Q].
  - destruct t as [|b1 t].
    + cbn in L. rewrite andb_true_r. destruct (Nat.eqb_spec (n - length b) 0); cbn; [rewrite app_length; cbn|]; lia.
    + rewrite andb_false_r. specialize (IH (n - length b)%nat ltac:(lia) ltac:(discriminate)).
      destruct (advance (b1 :: t) (n - length b)) as [[bs'|]|]; [|rewrite app_length; lia|exact IH].
      destruct IH as [IH1 IH2]. split; [|exact IH2]. rewrite IH1, skipn_app, (skipn_all2 b) by assumption. reflexivity.
  - split; [|discriminate]. cbn [concat]. rewrite skipn_app_le by lia. reflexivity.
Qed.

Fixpoint placedv (off : Z) (w : list chunk) : Prop :=
  match w with [] => True | (o, b) :: t => o = off /\ b <> [] /\ placedv (if off >=? 0 then off + len b else off) t end.
Lemma placedv_pos w : forall off, 0 <= off -> placedv off w -> placed off w.
Proof.
  induction w as [|[o b] t IH]; intros off H P; cbn in *; [exact I|]. destruct P as (-> & NB & P). replace (off >=? 0) with true in P by lia.
  pose proof (len_nonneg b). split; [reflexivity|]. split; [exact NB|]. apply IH; [lia|exact P].
Qed.
Lemma placedv_neg w : forall off, off < 0 -> placedv off w -> forall x, In x w -> fst x = off.
Proof.
  induction w as [|[o b] t IH]; intros off H P x I; cbn in *; [tauto|]. destruct P as (-> & NB & P). replace (off >=? 0) with false in P by lia.
  destruct I as [<-|I]; [reflexivity|]. exact (IH off H P x I).
Qed.

Lemma write_vec_spec ks : forall bs off o w, bs <> [] -> write_vec ks bs off = (o, w) ->
  placedv off w /\ o <> WPanic /\ exists rest, concat bs = written w ++ rest /\ (o = WNil <-> rest = []).
Proof.
  induction ks as [|k ks IH]; intros bs off o w NE E; cbn [write_vec] in E; cbn zeta in E.
  - destruct (concat bs) as [|x t] eqn:C; injection E as <- <-; cbn; (split; [exact I|]); (split; [discriminate|]); eexists; (split; [reflexivity|]); split; congruence.
  - destruct (concat bs) as [|x t] eqn:C.
    { injection E as <- <-. cbn. split; [exact I|]. split; [discriminate|]. exists []. tauto. }
    rewrite <- C in E. destruct k as [k| |].
    + destruct (Nat.eqb (Nat.min k (length (concat bs))) 0) eqn:Q.
      { injection E as <- <-. cbn. split; [exact I|]. split; [discriminate|]. eexists. split; [reflexivity|]. split; discriminate. }
      pose proof (firstn_min_nil (concat bs) k Q) as NB. pose proof (advance_spec bs (Nat.min k (length (concat bs))) ltac:(lia) NE) as A.
      assert (LF : len (firstn (Nat.min k (length (concat bs))) (concat bs)) = Z.of_nat (Nat.min k (length (concat bs)))) by (unfold len; rewrite firstn_length; lia).
      rewrite <- C. destruct (advance bs (Nat.min k (length (concat bs)))) as [[bs'|]|]; [| |destruct A].
      * destruct A as [A1 A2]. destruct (write_vec ks bs' (if off >=? 0 then off + Z.of_nat (Nat.min k (length (concat bs))) else off)) as [o1 w1] eqn:R.
        injection E as <- <-. destruct (IH _ _ _ _ A2 R) as (P & NP & rest & E1 & W).
        split; [cbn [placedv]; rewrite LF; auto|]. split; [exact NP|]. exists rest. split; [|exact W]. unfold written in *. cbn [map snd concat].
        rewrite <- app_assoc, <- E1, A1. symmetry. apply firstn_skipn.
      * injection E as <- <-. split; [cbn; auto|]. split; [discriminate|]. exists []. split; [|tauto]. unfold written. cbn [map snd concat]. rewrite !app_nil_r, A. symmetry. apply firstn_all.
    + rewrite <- C. exact (IH _ _ _ _ NE E).
    + injection E as <- <-. cbn. split; [exact I|]. split; [discriminate|]. eexists. split; [reflexivity|]. split; discriminate.
Qed.

(* C42: WriteVecAt writes a prefix of the two buffers' concatenation, each byte
   once, at consecutive offsets; nil is returned exactly if that is all of it.
   With offset -1, each system call continues from the file's current position. *)
Theorem write_vec_exact : forall ks b0 b1 offset o w,
  WriteVecAt ks b0 b1 offset = (o, w) ->
  exists rest, b0 ++ b1 = written w ++ rest /\ (o = WNil <-> rest = []) /\ o <> WPanic /\
    (0 <= offset -> forall content i, fwrites content w i = fwrite content offset (written w) i) /\
    (offset < 0 -> forall x, In x w -> fst x = offset).
Proof.
  intros ks b0 b1 off o w E. assert (NE : [b0; b1] <> []) by discriminate. destruct (write_vec_spec _ _ _ _ _ NE E) as (P & NP & rest & B & W).
  exists rest. cbn [concat] in B. rewrite app_nil_r in B. repeat split; auto; try apply W.
  - intros H content i. apply fwrites_placed. now apply placedv_pos.
  - intros H. now apply placedv_neg.
Qed.
Print Assumptions write_vec_exact.

(* C42: given enough successful system calls, writing finishes. *)
Theorem write_vec_finishes : forall ks b0 b1 offset,
  (forall k, In k ks -> exists n, k = KCount (S n)) -> len b0 + len b1 <= len ks ->
  fst (WriteVecAt ks b0 b1 offset) = WNil.
Proof.
  intros ks b0 b1 off H L. unfold WriteVecAt.
  cut (forall bs : list bytes, bs <> [] -> (length (concat bs) <= length ks)%nat -> fst (write_vec ks bs off) = WNil).
  { intros G. apply G; [discriminate|]. cbn. rewrite !app_length. cbn. unfold len in L. lia. }
  clear L b0 b1. revert off H.
  induction ks as [|k ks IH]; intros off H bs NE LB; cbn [write_vec]; cbn zeta.
  - destruct (concat bs); [reflexivity|cbn in LB; lia].
  - destruct (concat bs) as [|x t] eqn:C; [reflexivity|]. rewrite <- C in *. destruct (H k (or_introl eq_refl)) as [n ->].
    assert (LC : (1 <= length (concat bs))%nat) by (rewrite C; cbn; lia).
    replace (Nat.eqb (Nat.min (S n) (length (concat bs))) 0) with false by lia.
    pose proof (advance_spec bs (Nat.min (S n) (length (concat bs))) ltac:(lia) NE) as A.
    destruct (advance bs _) as [[bs'|]|]; [|reflexivity|destruct A]. destruct A as [A1 A2].
    specialize (IH (if off >=? 0 then off + Z.of_nat (Nat.min (S n) (length (concat bs))) else off) ltac:(intros; apply H; now right) bs' A2).
    destruct (write_vec ks bs' _) as [o1 w1]. cbn [fst] in *. apply IH. rewrite A1, skipn_length. cbn [length] in LB. lia.
Qed.
Print Assumptions write_vec_finishes.

Example write_vec_example :
  WriteVecAt [KCount 1; KAgain; KCount 3; KCount 9] [1; 2; 3] [4; 5; 6] 100
  = (WNil, [(100, [1]); (101, [2; 3; 4]); (104, [5; 6])]) /\
  WriteVecAt [KCount 3; KCount 0] [1; 2; 3] [4; 5; 6] 100 = (WErr, [(100, [1; 2; 3])]).
Proof. split; reflexivity. Qed.
