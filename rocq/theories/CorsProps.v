(* CorsProps.v: property C124: requests from foreign web sites aren't served. *)
From Verif Require Import Cors.

(** ** Specification *)

(* Non-empty text without white space *)
Definition word (w : bytes) : Prop := w <> [] /\ Forall (fun c => is_space c = false) w.
(* w is one of the white space separated words of t *)
Definition names (t w : bytes) : Prop :=
  word w /\ exists a b, t = a ++ w ++ b /\
    (a = [] \/ exists a' c, a = a' ++ [c] /\ is_space c = true) /\ (b = [] \/ exists c b', b = c :: b' /\ is_space c = true).
(* Configured, except for surrounding white space *)
Definition configured (origins : list bytes) (o : bytes) : Prop :=
  exists a b, In (a ++ o ++ b) origins /\ Forall (fun c => is_space c = true) a /\ Forall (fun c => is_space c = true) b.

(** ** Text *)

Lemma text_eqb_spec a b : text_eqb a b = true <-> a = b.
Proof. unfold text_eqb. destruct (list_eq_dec Z.eq_dec a b); split; congruence. Qed.
Lemma trim_left_spec t : exists a, t = a ++ trim_left t /\ Forall (fun c => is_space c = true) a.
Proof.
  induction t as [|c t (a & E & F)]; [exists []; auto|]. cbn. destruct (is_space c) eqn:Ec.
  - exists (c :: a). rewrite E at 1. auto.
  - exists []. auto.
Qed.
Lemma trim_space_spec t : exists a b, t = a ++ trim_space t ++ b /\
  Forall (fun c => is_space c = true) a /\ Forall (fun c => is_space c = true) b.
Proof.
  destruct (trim_left_spec t) as (a & E & Fa). destruct (trim_left_spec (rev (trim_left t))) as (b & E' & Fb).
  exists a, (rev b). unfold trim_space. split; [|split; auto].
  - rewrite E at 1. f_equal. rewrite <- (rev_involutive (trim_left t)) at 1. rewrite E' at 1. rewrite rev_app_distr. reflexivity.
  - now apply Forall_rev.
Qed.
Lemma fields_words : forall t w, Forall (fun c => is_space c = false) w -> Forall word (fields_from w t).
Proof.
  induction t as [|c t IH]; intros w F; cbn.
  - destruct w; constructor; auto. split; [discriminate|auto].
  - destruct (is_space c) eqn:E.
    + destruct w; [apply IH; auto|]. constructor; [split; [discriminate|auto]|apply IH; auto].
    + apply IH. apply Forall_app. auto.
Qed.
(* Every word is in the fields: generalized over the word that's being read *)
Lemma fields_in : forall t v w, Forall (fun c => is_space c = false) v ->
  names (v ++ t) w -> In w (fields_from v t).
Proof.
  induction t as [|c t IH]; intros v w F N.
  - rewrite app_nil_r in N. destruct N as ((Hw & Fw) & a & b & E & Ha & Hb).
    assert (A : a = []).
    { destruct Ha as [->|(a' & c & -> & Hc)]; auto. exfalso. subst v.
      rewrite Forall_forall in F. rewrite (F c) in Hc; [discriminate|]. rewrite !in_app_iff. cbn. auto. }
    assert (B : b = []).
    { destruct Hb as [->|(c & b' & -> & Hc)]; auto. exfalso. subst v.
      rewrite Forall_forall in F. rewrite (F c) in Hc; [discriminate|]. rewrite !in_app_iff. cbn. auto. }
    subst a b. cbn in E. rewrite app_nil_r in E. subst w. cbn. destruct v; [congruence|]. cbn. auto.
  - cbn. destruct (is_space c) eqn:Ec.
    + destruct N as ((Hw & Fw) & a & b & E & Ha & Hb).
      assert (D : v = w /\ v <> [] \/ names ([] ++ t) w).
      { destruct (le_lt_dec (length v) (length a)) as [L|L].
        - (* the word begins after v *)
          right. split; [split; auto|]. cbn.
          assert (E1 : exists a1, a = v ++ a1).
          { exists (skipn (length v) a). rewrite <- (firstn_skipn (length v) a) at 1. f_equal.
            assert (Q : firstn (length v) (v ++ c :: t) = firstn (length v) (a ++ w ++ b)) by now rewrite E.
            rewrite firstn_app, Nat.sub_diag, firstn_all, firstn_O, app_nil_r in Q.
            rewrite firstn_app in Q. replace (length v - length a)%nat with 0%nat in Q by lia.
            rewrite firstn_O, app_nil_r in Q. auto. }
          destruct E1 as (a1 & ->). rewrite <- app_assoc in E. apply app_inv_head in E.
          destruct a1 as [|c1 a1].
          + cbn in E. destruct w as [|w0 w]; [congruence|]. cbn in E. injection E as -> ->. inversion Fw. congruence.
          + cbn in E. injection E as <- ->. exists a1, b. split; auto. split; auto.
            destruct Ha as [Ha|(a' & c' & Ha & Hc)].
            { apply app_eq_nil in Ha. destruct Ha; discriminate. }
            destruct a1 as [|x a1] using rev_ind; [auto|]. right.
            exists a1, x. split; auto.
            change (v ++ c :: a1 ++ [x]) with (v ++ (c :: a1) ++ [x]) in Ha. rewrite app_assoc in Ha.
            apply app_inj_tail in Ha. destruct Ha as [_ ->]. auto.
        - (* the word begins within v *)
          left. assert (A : a = []).
          { destruct Ha as [->|(a' & c' & -> & Hc)]; auto. exfalso.
            assert (I : nth (length a') (v ++ c :: t) 0 = c').
            { rewrite E, <- app_assoc, app_nth2, Nat.sub_diag by lia. reflexivity. }
            rewrite app_length in L. cbn in L. rewrite app_nth1 in I by lia.
            rewrite Forall_forall in F. rewrite (F c') in Hc; [discriminate|]. rewrite <- I. apply nth_In. lia. }
          subst a. cbn in E. split; [|intros ->; cbn in L; lia].
          (* the first space of v ++ c :: t is at length v, that of w ++ b is at length w *)
          destruct (lt_eq_lt_dec (length v) (length w)) as [[H|H]|H].
          + exfalso. assert (I : nth (length v) (w ++ b) 0 = c).
            { rewrite <- E, app_nth2, Nat.sub_diag by lia. reflexivity. }
            rewrite app_nth1 in I by lia. rewrite Forall_forall in Fw. rewrite (Fw c) in Ec; [discriminate|].
            rewrite <- I. apply nth_In. lia.
          + assert (Q : firstn (length v) (v ++ c :: t) = firstn (length v) (w ++ b)) by now rewrite E.
            rewrite firstn_app, Nat.sub_diag, firstn_all, firstn_O, app_nil_r in Q.
            rewrite H, firstn_app, Nat.sub_diag, firstn_all, firstn_O, app_nil_r in Q. auto.
          + exfalso. destruct Hb as [->|(c' & b' & -> & Hc)].
            * rewrite app_nil_r in E. apply (f_equal (@length Z)) in E. rewrite app_length in E. cbn in E. lia.
            * assert (I : nth (length w) (v ++ c :: t) 0 = c').
              { rewrite E, app_nth2, Nat.sub_diag by lia. reflexivity. }
              rewrite app_nth1 in I by lia. rewrite Forall_forall in F. rewrite (F c') in Hc; [discriminate|].
              rewrite <- I. apply nth_In. lia. }
      destruct v as [|v0 v].
      * destruct D as [[_ D]|D]; [congruence|]. apply (IH [] w); auto.
      * cbn. destruct D as [[D _]|D]; [auto|]. right. apply (IH [] w); auto.
    + apply IH.
      * apply Forall_app. auto.
      * rewrite <- app_assoc. auto.
Qed.
Lemma fields_exact t w : In w (fields t) -> names t w.
Proof.
  unfold fields. enough (G : forall t v, Forall (fun c => is_space c = false) v ->
    In w (fields_from v t) -> names (v ++ t) w) by (apply (G t []); auto).
  clear t. induction t as [|c t IH]; intros v F H; cbn in H.
  - destruct v; [contradiction|]. destruct H as [<-|[]]. split; [split; [discriminate|auto]|].
    exists [], []. cbn. auto.
  - destruct (is_space c) eqn:Ec.
    + assert (N : forall v, names ([] ++ t) w -> names (v ++ c :: t) w).
      { intros v' ((Hw & Fw) & a & b & E & Ha & Hb). split; [split; auto|]. cbn in E.
        exists (v' ++ c :: a), b. split; [rewrite E, <- app_assoc; reflexivity|]. split; auto. right.
        destruct Ha as [->|(a' & c' & -> & Hc)]; [exists v', c; auto|].
        exists (v' ++ c :: a'), c'. split; auto. rewrite <- app_assoc. reflexivity. }
      destruct v as [|v0 v]; [apply N, IH; auto|]. destruct H as [<-|H]; [|apply N, IH; auto].
      split; [split; [discriminate|auto]|]. exists [], (c :: t). split; auto. split; auto. right. eauto.
    + apply IH in H; [|apply Forall_app; auto]. rewrite <- app_assoc in H. auto.
Qed.
(* strings.Fields is exactly that *)
Lemma fields_spec t w : In w (fields t) <-> names t w.
Proof. split; [apply fields_exact|]. intros N. apply (fields_in t [] w); auto. Qed.

(** ** Configuration *)

Definition add_origin (s : webserver) (origin : bytes) : webserver :=
  let origin := trim_space origin in
  if text_eqb origin [] then s
  else if text_eqb origin star then Webserver (ws_origins s) true (ws_local s)
  else Webserver (ws_origins s ++ [origin]) (ws_any s) (ws_local s).
Lemma configure_fold local origins : configure local origins = fold_left add_origin origins (Webserver [] false local).
Proof. reflexivity. Qed.
Lemma configure_gen origins : forall s,
  (forall o, In o (ws_origins (fold_left add_origin origins s)) <->
     In o (ws_origins s) \/ exists t, In t origins /\ trim_space t = o /\ o <> [] /\ o <> star) /\
  (ws_any (fold_left add_origin origins s) = true <-> ws_any s = true \/ exists t, In t origins /\ trim_space t = star) /\
  ws_local (fold_left add_origin origins s) = ws_local s.
Proof.
  induction origins as [|t l IH]; intros s.
  - cbn. split; [|split; auto].
    + intros o. split; auto. intros [H|(t & [] & _)]; auto.
    + split; auto. intros [H|(t & [] & _)]; auto.
  - cbn [fold_left]. destruct (IH (add_origin s t)) as (I1 & I2 & I3).
    assert (X : forall P : bytes -> Prop, (exists x, In x (t :: l) /\ P x) <-> P t \/ exists x, In x l /\ P x).
    { intros P. split.
      - intros (x & [->|Hx] & Hp); eauto.
      - intros [Hp|(x & Hx & Hp)]; [exists t|exists x]; cbn; auto. }
    split; [|split].
    + intros o. rewrite I1, (X (fun x => trim_space x = o /\ o <> [] /\ o <> star)). unfold add_origin.
      destruct (text_eqb (trim_space t) []) eqn:E1; [|destruct (text_eqb (trim_space t) star) eqn:E2].
      * apply text_eqb_spec in E1. rewrite E1. intuition congruence.
      * apply text_eqb_spec in E2. rewrite E2. cbn [ws_origins]. intuition congruence.
      * cbn [ws_origins]. rewrite in_app_iff. cbn [In].
        assert (trim_space t <> []) by (intros H; apply text_eqb_spec in H; congruence).
        assert (trim_space t <> star) by (intros H'; apply text_eqb_spec in H'; congruence).
        intuition congruence.
    + rewrite I2, (X (fun x => trim_space x = star)). unfold add_origin.
      destruct (text_eqb (trim_space t) []) eqn:E1; [|destruct (text_eqb (trim_space t) star) eqn:E2]; cbn [ws_any].
      * apply text_eqb_spec in E1. rewrite E1. intuition (try discriminate).
      * apply text_eqb_spec in E2. rewrite E2. intuition.
      * assert (trim_space t <> star) by (intros H'; apply text_eqb_spec in H'; congruence). intuition congruence.
    + rewrite I3. unfold add_origin. destruct (text_eqb _ _); [|destruct (text_eqb _ _)]; reflexivity.
Qed.
Lemma configure_origin local origins o : In o (ws_origins (configure local origins)) -> configured origins o.
Proof.
  rewrite configure_fold. destruct (configure_gen origins (Webserver [] false local)) as (I & _). rewrite I. cbn.
  intros [[]|(t & Ht & <- & _)]. destruct (trim_space_spec t) as (a & b & E & Fa & Fb).
  exists a, b. rewrite <- E. auto.
Qed.
Lemma configure_any local origins : ws_any (configure local origins) = true -> configured origins star.
Proof.
  rewrite configure_fold. destruct (configure_gen origins (Webserver [] false local)) as (_ & I & _). rewrite I. cbn.
  intros [H|(t & Ht & Hs)]; [discriminate|]. destruct (trim_space_spec t) as (a & b & E & Fa & Fb).
  exists a, b. rewrite <- Hs, <- E. auto.
Qed.
(* Trimming leaves words alone *)
Lemma trim_left_word a w : Forall (fun c => is_space c = true) a -> word w -> forall b, trim_left (a ++ w ++ b) = w ++ b.
Proof.
  intros Fa (Hw & Fw) b. induction Fa; cbn.
  - destruct w; [congruence|]. inversion Fw; subst. cbn. now rewrite H1.
  - now rewrite H.
Qed.
Lemma trim_space_word a w b : Forall (fun c => is_space c = true) a -> Forall (fun c => is_space c = true) b -> word w ->
  trim_space (a ++ w ++ b) = w.
Proof.
  intros Fa Fb W. unfold trim_space. rewrite trim_left_word by auto. rewrite rev_app_distr.
  rewrite <- (app_nil_r (rev w)). rewrite trim_left_word.
  - rewrite app_nil_r. apply rev_involutive.
  - now apply Forall_rev.
  - destruct W as (Hw & Fw). split; [|now apply Forall_rev]. intros H. apply (f_equal (@rev Z)) in H.
    rewrite rev_involutive in H. auto.
Qed.

(** ** C124 *)

(* Unless all origins have been allowed explicitly, a request is served only if each origin that it names is a configured one;
   the response then allows that, and nothing else. *)
Theorem foreign_requests_rejected : forall local origins s values r,
  new_handler local origins = Ok s -> ~ configured origins star ->
  respond_origin s values = Some r ->
  (forall o, names (get values) o -> configured origins o) /\
  r = match values with [] => None | v :: _ => Some v end.
Proof.
  intros local origins s values r H N. assert (s = configure local origins) as -> by (destruct origins; inversion H; auto).
  unfold respond_origin, admitted.
  destruct (ws_any (configure local origins)) eqn:A; [apply configure_any in A; contradiction|].
  intros R. split.
  - intros o No. destruct (text_eqb (get values) []) eqn:E.
    + apply text_eqb_spec in E. rewrite E in No. destruct No as ((Ho & _) & a & b & Eab & _).
      symmetry in Eab. apply app_eq_nil in Eab. destruct Eab as [_ Eab]. apply app_eq_nil in Eab. destruct Eab. contradiction.
    + destruct (allowed_origin _ _) eqn:F; [|discriminate]. unfold allowed_origin in F. rewrite forallb_forall in F.
      specialize (F o (proj2 (fields_spec _ _) No)). rewrite existsb_exists in F. destruct F as (x & Hx & Ex).
      apply text_eqb_spec in Ex. subst x. eapply configure_origin; eauto.
  - destruct (if text_eqb (get values) [] then true else _); [|discriminate]. injection R as <-.
    unfold allow_origin. rewrite A. destruct values; reflexivity.
Qed.
(* Requests from configured origins are served, as are those that don't come from web sites *)
Theorem allowed_requests_served : forall local origins s values,
  new_handler local origins = Ok s ->
  (forall o, names (get values) o -> configured origins o) ->
  exists r, respond_origin s values = Some r /\ (r = None <-> values = []).
Proof.
  intros local origins s values H N. assert (s = configure local origins) as -> by (destruct origins; inversion H; auto).
  assert (A : admitted (configure local origins) values = true).
  { unfold admitted. destruct (ws_any (configure local origins)) eqn:A; auto.
    destruct (text_eqb (get values) []); auto. unfold allowed_origin. rewrite forallb_forall.
    intros o Ho. apply fields_spec in Ho. pose proof (proj1 Ho) as W. destruct (N o Ho) as (a & b & Hin & Fa & Fb).
    rewrite existsb_exists. exists o. split; [|now apply text_eqb_spec].
    rewrite configure_fold in *. destruct (configure_gen origins (Webserver [] false local)) as (I & I2 & _). rewrite I. right.
    exists (a ++ o ++ b). rewrite trim_space_word by auto. split; auto. split; auto. split; [apply W|].
    intros ->. assert (C : ws_any (fold_left add_origin origins (Webserver [] false local)) = true).
    { apply I2. right. exists (a ++ star ++ b). rewrite trim_space_word by auto. auto. }
    congruence. }
  unfold respond_origin. rewrite A. eexists. split; [reflexivity|]. unfold allow_origin. destruct values; split; congruence.
Qed.
(* The origin check can't be disabled for a handler that doesn't check credentials *)
Theorem local_handler_checks_origins : forall origins s, NewLocalHandler origins = Ok s -> ws_any s = false.
Proof.
  intros origins s. unfold NewLocalHandler. destruct (existsb (fun o => existsb (Z.eqb 42) o) origins) eqn:E; [discriminate|].
  intros H. assert (s = configure true origins) as -> by (destruct origins; inversion H; auto).
  destruct (ws_any (configure true origins)) eqn:A; auto. apply configure_any in A.
  destruct A as (a & b & Hin & _). exfalso.
  assert (X : existsb (fun o => existsb (Z.eqb 42) o) origins = true); [|congruence].
  rewrite existsb_exists. eexists. split; [exact Hin|]. rewrite existsb_exists. exists 42.
  split; [|reflexivity]. rewrite !in_app_iff. cbn. auto.
Qed.

(* Examples: " a.b " is configured; the origins a.b and b *)
Definition ab : bytes := [97; 46; 98].
Example origin_examples :
  exists s, NewLocalHandler [[32] ++ ab ++ [32]; [32]] = Ok s /\
    respond_origin s [ab] = Some (Some ab) /\ respond_origin s [[98]] = None /\
    respond_origin s [ab ++ [32; 98]] = None /\ respond_origin s [] = Some None.
Proof. eexists. split; [reflexivity|]. vm_compute. auto. Qed.
Example any_origin : exists s, NewHandler [ab; star] = Ok s /\ respond_origin s [[98]] = Some (Some star).
Proof. eexists. split; reflexivity. Qed.
Example local_star : NewLocalHandler [ab; [32; 42]] = Panic.
Proof. reflexivity. Qed.
(* Only the first one of several Origin headers is checked. *)
Theorem all_origins_checked_refuted : exists s values,
  NewHandler [ab] = Ok s /\ In [98] values /\ respond_origin s values = Some (Some ab).
Proof. exists (Webserver [ab] false false), [ab; [98]]. vm_compute. auto. Qed.
Print Assumptions foreign_requests_rejected.
Print Assumptions allowed_requests_served.
Print Assumptions local_handler_checks_origins.
Print Assumptions all_origins_checked_refuted.
