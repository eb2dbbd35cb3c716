(* GrpcConfigProps.v: C146. *)
From Verif Require Import GrpcConfig.
From Coq Require Import Lia.
Open Scope nat_scope.

(* ---- Specification ---- *)
Definition acts_of (l : list (nat * act)) (i : nat) : list act := map snd (filter (fun x => fst x =? i) l).
Definition res_eqb (a b : resource) : bool :=
  match a, b with Sock1, Sock1 | Sock2, Sock2 | Stderr, Stderr | Process, Process | Client, Client => true | _, _ => false end.
Definition holding (r : resource) (held : bool) (a : act) : bool :=
  match a with Get x => if res_eqb x r then true else held | Put x => if res_eqb x r then false else held | _ => held end.
Definition is_held (l : list act) (r : resource) : bool := fold_left (holding r) l false.
(* Nothing is released that isn't held, nor acquired while it is *)
Fixpoint sound_from (before l : list act) : Prop :=
  match l with
  | [] => True
  | a :: t => match a with Get r => is_held before r = false | Put r => is_held before r = true | _ => True end /\ sound_from (before ++ [a]) t
  end.
Definition sound (l : list act) : Prop := sound_from [] l.
(* What a connection needs while it's open *)
Definition needs (k : kind) (r : resource) : Prop :=
  match k, r with Executed, (Stderr | Process | Client) => True | Dialed, Client => True | _, _ => False end.
(* The program and the arguments (with its name) of a configured command *)
Definition runs (c : bytes) (a : act) : Prop :=
  exists path args, a = Exec path args /\
    ((fields c = (at_sign :: path) :: args) \/
     (fields c = args /\ hd_error args = Some path /\ hd_error path <> Some at_sign /\ path <> [])).
(* The address and the security of a configured target *)
Definition dials (t : bytes) (a : act) : Prop :=
  exists addr opts insecure, a = Dial addr insecure /\ fields t = addr :: opts /\ (insecure = true <-> In insecure_ opts).
Definition is_call (a : act) : bool := match a with Exec _ _ | Dial _ _ => true | _ => false end.
Definition calls (l : list (nat * act)) : list act := filter is_call (map snd l).
Definition can_run (c : bytes) : Prop := exists path args, runs c (Exec path args) /\ args <> [].
Definition can_dial (t : bytes) : Prop := exists addr opts, fields t = addr :: opts /\ forall o, In o opts -> o = insecure_ \/ o = optional_.
Definition is_optional (t : bytes) : Prop := exists addr opts, fields t = addr :: opts /\ In optional_ opts.

(* ---- Logs ---- *)
Arguments acts_of : simpl never.
Arguments calls : simpl never.
Lemma is_held_app a b r : is_held (a ++ b) r = fold_left (holding r) b (is_held a r).
Proof. apply fold_left_app. Qed.
Lemma sound_app a b : sound (a ++ b) <-> sound a /\ sound_from a b.
Proof.
  unfold sound. change a with ([] ++ a) at 3. generalize (@nil act). induction a as [|x a IH]; intros p; cbn.
  - rewrite app_nil_r. tauto.
  - rewrite IH. rewrite <- app_assoc. cbn. tauto.
Qed.
Lemma acts_of_app a b i : acts_of (a ++ b) i = acts_of a i ++ acts_of b i.
Proof. unfold acts_of. rewrite filter_app, map_app. reflexivity. Qed.
Lemma acts_of_same l i : acts_of (map (fun a => (i, a)) l) i = l.
Proof. unfold acts_of. induction l; cbn; auto. rewrite Nat.eqb_refl. cbn. congruence. Qed.
Lemma acts_of_other l i j : i <> j -> acts_of (map (fun a => (i, a)) l) j = [].
Proof. unfold acts_of. intros H. induction l; cbn; auto. destruct (Nat.eqb_spec i j); [congruence|auto]. Qed.
Lemma acts_of_none l j : (forall x, In x l -> fst x < j) -> acts_of l j = [].
Proof.
  intros H. unfold acts_of. induction l as [|x l IH]; cbn; auto.
  destruct (Nat.eqb_spec (fst x) j); [exfalso; specialize (H x (or_introl eq_refl)); lia|]. apply IH. intros y Hy. apply H. right. auto.
Qed.

(* ---- Invariant ---- *)
Definition held (k : kind) (l : list act) : Prop := sound l /\ forall r, is_held l r = true <-> needs k r.
Definition released (l : list act) : Prop := sound l /\ forall r, is_held l r = false.
Definition leaked (l : list act) : Prop := sound l /\ (exists path, In (Exec path []) l) /\ forall r, is_held l r = true <-> r = Client.
Record Inv (leak : Prop) (s : state) : Prop := {
  i_log : forall x, In x (s_log s) -> fst x < s_next s;
  i_conns : forall c, In c (s_conns s) -> fst c < s_next s;
  i_nodup : NoDup (map fst (s_conns s));
  i_held : forall i k, In (i, k) (s_conns s) -> held k (acts_of (s_log s) i);
  i_rest : forall i, ~ In i (map fst (s_conns s)) -> released (acts_of (s_log s) i) \/ leak /\ leaked (acts_of (s_log s) i) }.
Lemma inv_initial : Inv False initial.
Proof. split; cbn; [tauto|tauto|constructor|tauto|]. intros i _. left. split; [exact I|reflexivity]. Qed.
Definition shape (o : outcome) (k : kind) (l : list act) : Prop :=
  match o with Opened => held k l | Failed => released l | Panicked => leaked l end.
Lemma inv_attempt s acts o k : Inv False s -> shape o k acts -> Inv (o = Panicked) (attempt s acts o k).
Proof.
  intros [A B C D E] S.
  assert (N : acts_of (s_log s) (s_next s) = []) by (apply acts_of_none; auto).
  assert (G : forall i, acts_of (s_log (attempt s acts o k)) i = if i =? s_next s then acts else acts_of (s_log s) i).
  { intros i. cbn [attempt s_log]. rewrite acts_of_app. destruct (Nat.eqb_spec i (s_next s)) as [->|Hi].
    - rewrite N, acts_of_same. reflexivity.
    - rewrite acts_of_other by congruence. apply app_nil_r. }
  assert (F : forall i, In i (map fst (s_conns s)) -> i < s_next s).
  { intros i Hi. apply in_map_iff in Hi. destruct Hi as (c & <- & Hc). auto. }
  split.
  - cbn. intros x H. apply in_app_iff in H. destruct H as [H|H]; [apply A in H; lia|].
    apply in_map_iff in H. destruct H as (a & <- & _). cbn. lia.
  - cbn. intros c H. assert (X : In c (s_conns s) \/ c = (s_next s, k)).
    { destruct o; auto. apply in_app_iff in H. destruct H as [H|[H|[]]]; auto. }
    destruct X as [X| ->]; [apply B in X; lia|cbn; lia].
  - cbn. destruct o; auto. rewrite map_app. cbn. apply NoDup_Add with (a := s_next s) (l := map fst (s_conns s)).
    + rewrite <- (app_nil_r (map fst (s_conns s))) at 1. apply Add_app.
    + split; auto. intros H. apply F in H. lia.
  - intros i k' H. rewrite G. destruct (Nat.eqb_spec i (s_next s)) as [->|Hi].
    + cbn in H. destruct o; [|exfalso; apply B in H; cbn in H; lia ..].
      apply in_app_iff in H. destruct H as [H|[H|[]]]; [apply B in H; cbn in H; lia|]. injection H as <-. exact S.
    + apply D. cbn in H. destruct o; auto. apply in_app_iff in H. destruct H as [H|[H|[]]]; auto. congruence.
  - intros i H. rewrite G. destruct (Nat.eqb_spec i (s_next s)) as [->|Hi].
    + destruct o; [|left; exact S|right; split; auto].
      exfalso. apply H. cbn. rewrite map_app, in_app_iff. right. left. reflexivity.
    + assert (X : ~ In i (map fst (s_conns s))).
      { intros Hx. apply H. cbn. destruct o; auto. rewrite map_app, in_app_iff. auto. }
      destruct (E i X) as [Y|[[] _]]. auto.
Qed.
Lemma execute_shape f path args acts o : execute f path args = (acts, o) -> shape o Executed acts.
Proof.
  unfold execute. intros H.
  destruct f; [injection H as <- <- ..|destruct args as [|a args]; injection H as <- <-]; cbn.
  1-4: split; [unfold sound; cbn; tauto|intros []; reflexivity].
  - split; [unfold sound; cbn; tauto|]. split; [eexists; left; reflexivity|]. intros []; cbn; split; congruence.
  - split; [unfold sound; cbn; tauto|]. intros []; cbn; split; congruence || tauto.
Qed.
Lemma inv_command w c s s' o : Inv False s -> command w c s = (s', o) -> Inv (o = Panicked) s'.
Proof.
  intros H E. unfold command in E.
  assert (P : forall Q, Inv Q s).
  { intros Q. destruct H as [A B C D F]. split; auto. intros i Hi. destruct (F i Hi) as [X|[[] _]]. auto. }
  destruct (fields c) as [|p rest]; [injection E as <- <-; apply P|]. destruct p as [|c0 tail]; [injection E as <- <-; apply P|].
  destruct (c0 =? at_sign)%Z; destruct (execute _ _ _) as [acts x] eqn:Ex in E; injection E as <- <-; apply inv_attempt; auto; eapply execute_shape; eauto.
Qed.
Lemma inv_target w t s s' o : Inv False s -> target w t s = (s', o) -> Inv (o = Panicked) s'.
Proof.
  intros H E. unfold target in E.
  assert (P : forall Q z, Inv False z -> Inv Q z).
  { intros Q z [A B C D F]. split; auto. intros i Hi. destruct (F i Hi) as [X|[[] _]]. auto. }
  assert (P2 : forall z, Inv (Failed = Panicked) z -> Inv False z).
  { intros z [A B C D F]. split; auto. intros i Hi. destruct (F i Hi) as [X|[X _]]; [auto|discriminate]. }
  destruct (fields t) as [|addr opts]; [injection E as <- <-; auto|].
  destruct (options opts false false) as [[insecure optional]|]; [|injection E as <- <-; auto].
  assert (X : forall acts, released acts -> forall o', Inv (o' = Panicked) (attempt s acts Failed Dialed)).
  { intros acts Ha o'. apply P, P2, inv_attempt; auto. }
  assert (R1 : released [Dial addr insecure; Warn]) by (split; [unfold sound; cbn; tauto|reflexivity]).
  assert (R2 : released [Dial addr insecure]) by (split; [unfold sound; cbn; tauto|reflexivity]).
  destruct (w (s_next s)); [destruct optional; injection E as <- <-; auto ..|].
  injection E as <- <-. apply inv_attempt; auto. split; [unfold sound; cbn; tauto|]. intros []; cbn; split; congruence || tauto.
Qed.
Lemma inv_each f l : (forall x s s' o, Inv False s -> f x s = (s', o) -> Inv (o = Panicked) s') ->
  forall s s' o, Inv False s -> each f l s = (s', o) -> Inv (o = Panicked) s'.
Proof.
  intros F. induction l as [|x l IH]; cbn; intros s s' o H E.
  - injection E as <- <-. destruct H as [A B C D G]. split; auto. intros i Hi. destruct (G i Hi) as [X|[[] _]]. auto.
  - destruct (f x s) as [s1 o1] eqn:E1. pose proof (F _ _ _ _ H E1) as H1.
    destruct o1; [|injection E as <- <-; auto ..]. apply (IH s1); auto.
    destruct H1 as [A B C D G]. split; auto. intros i Hi. destruct (G i Hi) as [X|[X _]]; [auto|discriminate].
Qed.
Lemma close_shape b k l : held k l -> released (l ++ match k with Executed => close_process b | Dialed => [Put Client] end).
Proof.
  intros [S H]. assert (X : forall r, is_held l r = match k, r with Executed, (Stderr | Process | Client) => true | Dialed, Client => true | _, _ => false end).
  { intros r. specialize (H r). destruct (is_held l r).
    - destruct H as [H _]. specialize (H eq_refl). destruct k, r; cbn in H; tauto.
    - destruct H as [_ H]. destruct k, r; cbn in H; try reflexivity; specialize (H I); discriminate. }
  split.
  - apply sound_app. split; auto. destruct k, b; cbn; rewrite ?is_held_app, ?X; cbn; rewrite ?X; cbn; tauto.
  - intros r. rewrite is_held_app, X. destruct k, b, r; reflexivity.
Qed.
Lemma flat_acts failed conns i : NoDup (map fst conns) ->
  (~ In i (map fst conns) -> acts_of (flat_map (close_conn failed) conns) i = []) /\
  (forall k, In (i, k) conns -> acts_of (flat_map (close_conn failed) conns) i = match k with Executed => close_process (failed i) | Dialed => [Put Client] end).
Proof.
  assert (Cc : forall j k, close_conn failed (j, k) = map (fun a => (j, a)) (match k with Executed => close_process (failed j) | Dialed => [Put Client] end)) by reflexivity.
  induction conns as [|[j k0] conns IH]; intros N; [split; [reflexivity|intros k []]|].
  cbn [map fst flat_map] in *. inversion N as [|? ? N1 N2]; subst. destruct (IH N2) as [I1 I2]. rewrite Cc, acts_of_app. split.
  - intros H. rewrite acts_of_other by (intros ->; apply H; left; auto). apply I1. intros X. apply H. right. auto.
  - intros k [H|H].
    + injection H as -> ->. rewrite acts_of_same, (I1 N1). apply app_nil_r.
    + rewrite acts_of_other; [apply I2; auto|]. intros ->. apply N1. apply in_map_iff. exists (i, k). auto.
Qed.
Lemma inv_close leak failed s : Inv leak s -> Inv leak (close_all failed s).
Proof.
  intros [A B C D E]. split; cbn [close_all s_log s_next s_conns map]; [|intros c []|constructor|intros i k []|].
  - intros x H. apply in_app_iff in H. destruct H as [H|H]; [auto|]. apply in_flat_map in H. destruct H as ([i k] & Hc & H).
    unfold close_conn in H. apply in_map_iff in H. destruct H as (a & <- & _). apply B in Hc. exact Hc.
  - intros i _. rewrite acts_of_app. destruct (flat_acts failed (s_conns s) i C) as [F1 F2].
    destruct (in_dec Nat.eq_dec i (map fst (s_conns s))) as [H|H].
    + apply in_map_iff in H. destruct H as ([j k] & <- & H). cbn in *. rewrite (F2 k) by auto. left. apply close_shape. auto.
    + rewrite F1, app_nil_r by auto. auto.
Qed.
Lemma init_inv w failed cmds targets s o : init w failed cmds targets = (s, o) -> Inv (o = Panicked) s /\ (o <> Opened -> s_conns s = []).
Proof.
  unfold init. intros E. destruct (each (command w) cmds initial) as [s1 o1] eqn:E1.
  pose proof (inv_each _ _ (inv_command w) _ _ _ inv_initial E1) as H1.
  assert (F : o1 = Opened -> Inv False s1).
  { intros ->. destruct H1 as [A B C D G]. split; auto. intros i Hi. destruct (G i Hi) as [X|[X _]]; [auto|discriminate]. }
  destruct o1.
  - destruct (each (target w) targets s1) as [s2 o2] eqn:E2.
    pose proof (inv_each _ _ (inv_target w) _ _ _ (F eq_refl) E2) as H2.
    destruct o2; injection E as <- <-; split; try congruence; try apply inv_close; auto; congruence.
  - injection E as <- <-. split; [apply inv_close; auto|reflexivity].
  - injection E as <- <-. split; [apply inv_close; auto|reflexivity].
Qed.

(* ---- Theorems ---- *)

(* Nothing is released twice or acquired in vain, however initialization ends; also when the connections are closed *)
Theorem resources_sound w failed failed' cmds targets s o : init w failed cmds targets = (s, o) ->
  forall i, sound (acts_of (s_log s) i) /\ sound (acts_of (s_log (fst (close failed' s))) i).
Proof.
  intros E. apply init_inv in E. destruct E as [H _]. pose proof (inv_close _ failed' _ H) as H'.
  assert (G : forall z, Inv (o = Panicked) z -> forall i, sound (acts_of (s_log z) i)).
  { intros z [A B C D F] i. destruct (in_dec Nat.eq_dec i (map fst (s_conns z))) as [X|X].
    - apply in_map_iff in X. destruct X as ([j k] & <- & X). apply (D _ _ X).
    - destruct (F i X) as [[Y _]|(_ & Y & _)]; auto. }
  intros i. split; [auto|]. apply (G (close_all failed' s)); auto.
Qed.
Print Assumptions resources_sound.

(* If it doesn't succeed then nothing remains: no process, no descriptor, no connection; save for the connection of a command which has no arguments *)
Theorem failed_init_releases w failed cmds targets s o : init w failed cmds targets = (s, o) -> o <> Opened ->
  forall i r, is_held (acts_of (s_log s) i) r = true -> o = Panicked /\ r = Client /\ exists path, In (Exec path []) (acts_of (s_log s) i).
Proof.
  intros E N i r H. apply init_inv in E. destruct E as [[A B C D F] Z]. specialize (Z N).
  destruct (F i) as [[_ Y]|(P & _ & X & Y)].
  - rewrite Z. intros [].
  - rewrite Y in H. discriminate.
  - apply Y in H. auto.
Qed.
Print Assumptions failed_init_releases.
Corollary error_releases w failed cmds targets s : init w failed cmds targets = (s, Failed) -> forall i r, is_held (acts_of (s_log s) i) r = false.
Proof.
  intros E i r. destruct (is_held _ r) eqn:H; auto. destruct (failed_init_releases _ _ _ _ _ _ E ltac:(discriminate) _ _ H) as [X _]. discriminate.
Qed.
Print Assumptions error_releases.

(* Afterwards exactly what the open connections need is held *)
Theorem init_holds w failed cmds targets s : init w failed cmds targets = (s, Opened) ->
  forall i r, is_held (acts_of (s_log s) i) r = true <-> exists k, In (i, k) (s_conns s) /\ needs k r.
Proof.
  intros E i r. apply init_inv in E. destruct E as [[A B C D F] _]. split.
  - intros H. destruct (in_dec Nat.eq_dec i (map fst (s_conns s))) as [X|X].
    + apply in_map_iff in X. destruct X as ([j k] & <- & X). exists k. split; auto. apply (D _ _ X). exact H.
    + destruct (F i X) as [[_ Y]|[Y _]]; [rewrite Y in H|]; discriminate.
  - intros (k & X & Y). apply (D _ _ X). exact Y.
Qed.
Print Assumptions init_holds.
(* and after Close nothing; Close tells of the first failure *)
Theorem close_releases w failed failed' cmds targets s : init w failed cmds targets = (s, Opened) ->
  forall i r, is_held (acts_of (s_log (fst (close failed' s))) i) r = false.
Proof.
  intros E i r. apply init_inv in E. destruct E as [H _]. apply (inv_close _ failed') in H.
  destruct H as [A B C D F]. destruct (F i) as [[_ Y]|[Y _]]; [intros []|apply Y|discriminate].
Qed.
Print Assumptions close_releases.
Theorem close_error failed s : match snd (close failed s) with
  | None => forall c, In c (s_conns s) -> failed (fst c) = false
  | Some i => failed i = true /\ exists a k b, s_conns s = a ++ (i, k) :: b /\ forall c, In c a -> failed (fst c) = false
  end.
Proof.
  cbn. induction (s_conns s) as [|[j k] l IH]; cbn; [intros c []|].
  destruct (failed j) eqn:E.
  - split; auto. exists [], k, l. split; [reflexivity|intros c []].
  - destruct (filter failed (map fst l)) as [|i t].
    + intros c [<-|H]; auto.
    + destruct IH as [H (a & k' & b & -> & F)]. split; auto. exists ((j, k) :: a), k', b. split; [reflexivity|]. intros c [<-|X]; auto.
Qed.
Print Assumptions close_error.

(* ---- What is run and connected to ---- *)
Lemma options_spec l : forall insecure optional,
  match options l insecure optional with
  | Some (i, o) => (forall x, In x l -> x = insecure_ \/ x = optional_) /\ (i = true <-> insecure = true \/ In insecure_ l) /\ (o = true <-> optional = true \/ In optional_ l)
  | None => exists x, In x l /\ x <> insecure_ /\ x <> optional_
  end.
Proof.
  assert (T : forall a b, text_eqb a b = true <-> a = b) by (intros a b; unfold text_eqb; destruct (list_eq_dec Z.eq_dec a b); split; congruence).
  induction l as [|x l IH]; intros a b; cbn.
  - repeat split; try tauto. 
  - destruct (text_eqb x insecure_) eqn:E1; [|destruct (text_eqb x optional_) eqn:E2].
    + apply T in E1. subst x. specialize (IH true b). destruct (options l true b) as [[i o]|].
      * destruct IH as (I1 & I2 & I3). split; [intros x [<-|H]; auto|]. split.
        -- rewrite I2. split; auto.
        -- rewrite I3. split; [tauto|]. intros [H|[H|H]]; auto. discriminate.
      * destruct IH as (x & H & I2). exists x. auto.
    + apply T in E2. subst x. specialize (IH a true). destruct (options l a true) as [[i o]|].
      * destruct IH as (I1 & I2 & I3). split; [intros x [<-|H]; auto|]. split.
        -- rewrite I2. split; [tauto|]. intros [H|[H|H]]; auto. discriminate.
        -- rewrite I3. split; auto.
      * destruct IH as (x & H & I2). exists x. auto.
    + exists x. split; [left; auto|]. split; intros ->; [assert (text_eqb insecure_ insecure_ = true) by (apply T; auto)|assert (text_eqb optional_ optional_ = true) by (apply T; auto)]; congruence.
Qed.
Lemma fields_nonempty c x : In x (fields c) -> x <> [].
Proof.
  unfold fields. enough (G : forall c w, In x (fields_from w c) -> x <> []) by apply G.
  clear. induction c as [|a c IH]; cbn; intros w H.
  - destruct w; [destruct H|]. destruct H as [<-|[]]. discriminate.
  - destruct (is_space a); [|eauto]. destruct w; eauto. destruct H as [<-|H]; [discriminate|eauto].
Qed.
Lemma execute_calls f path args : filter is_call (fst (execute f path args)) = [Exec path args].
Proof. destruct f; try reflexivity. destruct args; reflexivity. Qed.
Lemma calls_attempt s acts o k : calls (s_log (attempt s acts o k)) = calls (s_log s) ++ filter is_call acts.
Proof. cbn. unfold calls. rewrite map_app, filter_app, map_map. cbn. rewrite map_id. reflexivity. Qed.
Lemma command_spec w c s :
  match command w c s with
  | (s', Opened) => s_next s' = S (s_next s) /\ can_run c /\ w (s_next s) = FNone /\ (exists a, calls (s_log s') = calls (s_log s) ++ [a] /\ runs c a) /\ s_conns s' = s_conns s ++ [(s_next s, Executed)]
  | (s', _) => ~ (can_run c /\ w (s_next s) = FNone) /\ (s' = s \/ exists a, calls (s_log s') = calls (s_log s) ++ [a] /\ runs c a)
  end.
Proof.
  unfold command. destruct (fields c) as [|p rest] eqn:Ef.
  { split; auto. intros [(path & args & (p & a & X & [Y|(Y & Z & _)]) & N) _]; [congruence|]. congruence. }
  assert (Np : p <> []) by (apply (fields_nonempty c); rewrite Ef; left; reflexivity).
  destruct p as [|c0 tail]; [congruence|]. cbv beta iota.
  match goal with |- context [if ?b then ?y else ?z] => set (pa := if b then y else z) end.
  assert (R : runs c (Exec (fst pa) (snd pa))).
  { exists (fst pa), (snd pa). split; [reflexivity|]. subst pa. destruct (Z.eqb_spec c0 at_sign) as [->|H0]; cbn; [left; exact Ef|]. right.
    split; [exact Ef|]. split; [reflexivity|]. split; [congruence|discriminate]. }
  assert (U : forall path args, runs c (Exec path args) -> args = snd pa).
  { intros path args (p & a & X & Y). injection X as <- <-. subst pa. destruct Y as [Y|(Y & Z & W & V)].
    - rewrite Ef in Y. injection Y as -> <- <-. rewrite Z.eqb_refl. reflexivity.
    - rewrite Ef in Y. rewrite <- Y in Z. cbn in Z. injection Z as <-. cbn in W. destruct (Z.eqb_spec c0 at_sign); [congruence|auto]. }
  destruct pa as [path args]. cbn in R, U. pose proof (execute_calls (w (s_next s)) path args) as Ec.
  destruct (execute (w (s_next s)) path args) as [acts o] eqn:Ee. cbn in Ec. 
  assert (K : exists a, calls (s_log (attempt s acts o Executed)) = calls (s_log s) ++ [a] /\ runs c a).
  { exists (Exec path args). rewrite calls_attempt, Ec. auto. }
  assert (O : o = Opened <-> (args <> [] /\ w (s_next s) = FNone)).
  { unfold execute in Ee. destruct (w (s_next s)); [injection Ee as <- <-; split; [discriminate|intros [_ X]; discriminate] ..|].
    destruct args; injection Ee as <- <-; split; intros X; [discriminate|destruct X as [X _]; congruence|split; [discriminate|reflexivity]|reflexivity]. }
  assert (V : o <> Opened -> ~ (can_run c /\ w (s_next s) = FNone)).
  { intros N [(p1 & a1 & X & Y) Z]. apply N, O. rewrite (U _ _ X) in Y. auto. }
  destruct o.
  - destruct (proj1 O eq_refl) as [O1 O2]. split; [reflexivity|]. split; [exists path, args; auto|]. auto.
  - split; [apply V; discriminate|auto].
  - split; [apply V; discriminate|auto].
Qed.
Lemma target_spec w t s :
  match target w t s with
  | (s', Opened) => s_next s' = S (s_next s) /\ can_dial t /\ (w (s_next s) = FNone \/ is_optional t) /\ (exists a, calls (s_log s') = calls (s_log s) ++ [a] /\ dials t a) /\
                    s_conns s' = s_conns s ++ match w (s_next s) with FNone => [(s_next s, Dialed)] | _ => [] end
  | (s', _) => ~ (can_dial t /\ (w (s_next s) = FNone \/ is_optional t)) /\ (s' = s \/ exists a, calls (s_log s') = calls (s_log s) ++ [a] /\ dials t a)
  end.
Proof.
  unfold target. destruct (fields t) as [|addr opts] eqn:Ef.
  { split; auto. intros [(a & o & X & _) _]. congruence. }
  pose proof (options_spec opts false false) as S. destruct (options opts false false) as [[insecure optional]|].
  - destruct S as (S1 & S2 & S3).
    assert (D : dials t (Dial addr insecure)) by (exists addr, opts, insecure; repeat split; auto; rewrite S2; intuition discriminate).
    assert (Cd : can_dial t) by (exists addr, opts; auto).
    assert (Op : is_optional t <-> optional = true).
    { rewrite S3. split; [intros (a & o & X & Y); rewrite Ef in X; injection X as <- <-; auto|]. intros [X|X]; [discriminate|]. exists addr, opts. auto. }
    assert (K : forall l x, filter is_call l = [Dial addr insecure] -> exists a, calls (s_log (attempt s l x Dialed)) = calls (s_log s) ++ [a] /\ dials t a).
    { intros l x E. exists (Dial addr insecure). rewrite calls_attempt, E. auto. }
    destruct (w (s_next s)) eqn:Ew.
    5: { split; [reflexivity|]. split; auto. }
    1-4: destruct optional; [split; [reflexivity|]; split; auto; split; [right; tauto|]; split; [auto|cbn; rewrite app_nil_r; reflexivity]|].
    1-4: split; [|right; auto]; intros [_ [X|X]]; [discriminate|]; apply Op in X; discriminate.
  - split; auto. intros [(a & o & X & Y) _]. rewrite Ef in X. injection X as <- <-. destruct S as (x & Hx & N1 & N2). destruct (Y x Hx); congruence.
Qed.
Lemma each_spec f (ok : bytes -> nat -> Prop) (calling : bytes -> act -> Prop) l :
  (forall x s, match f x s with
     | (s', Opened) => s_next s' = S (s_next s) /\ ok x (s_next s) /\ exists a, calls (s_log s') = calls (s_log s) ++ [a] /\ calling x a
     | (s', _) => ~ ok x (s_next s) /\ (s' = s \/ exists a, calls (s_log s') = calls (s_log s) ++ [a] /\ calling x a)
     end) ->
  forall s s' o, each f l s = (s', o) ->
    (o = Opened <-> forall j x, nth_error l j = Some x -> ok x (s_next s + j)) /\
    (o = Opened -> s_next s' = s_next s + length l) /\
    exists c, calls (s_log s') = calls (s_log s) ++ c /\ Forall2 calling (firstn (length c) l) c /\ (o = Opened -> length c = length l).
Proof.
  intros F. induction l as [|x l IH]; cbn; intros s s' o E.
  - injection E as <- <-. split; [split; auto; intros _ [|j] x H; discriminate|]. split; [lia|].
    exists []. rewrite app_nil_r. repeat split; auto. constructor.
  - specialize (F x s). destruct (f x s) as [s1 o1] eqn:E1.
    assert (Bad : forall z, z <> Opened -> ~ ok x (s_next s) -> (s1 = s \/ exists a, calls (s_log s1) = calls (s_log s) ++ [a] /\ calling x a) -> (s1, z) = (s', o) ->
      (o = Opened <-> forall j y, nth_error (x :: l) j = Some y -> ok y (s_next s + j)) /\ (o = Opened -> s_next s' = s_next s + S (length l)) /\
      exists c, calls (s_log s') = calls (s_log s) ++ c /\ Forall2 calling (firstn (length c) (x :: l)) c /\ (o = Opened -> length c = S (length l))).
    { intros z Nz N H X. injection X as <- <-. split; [split; [congruence|]|split; [congruence|]].
      - intros G. exfalso. apply N. specialize (G 0 x eq_refl). rewrite Nat.add_0_r in G. exact G.
      - destruct H as [->|(a & Ha & Hx)].
        + exists []. rewrite app_nil_r. repeat split; auto; [constructor|congruence].
        + exists [a]. repeat split; auto; [cbn; constructor; auto; constructor|congruence]. }
    destruct o1; [|apply (Bad Failed); try congruence; apply F|apply (Bad Panicked); try congruence; apply F].
    destruct F as (F1 & F2 & a & F3 & F4). destruct (IH _ _ _ E) as (I1 & I2 & c & I3 & I4 & I5). rewrite F1 in *. split; [|split].
    + rewrite I1. split.
      * intros G [|j] y H; [cbn in H; injection H as <-; rewrite Nat.add_0_r; auto|]. specialize (G j y H). rewrite Nat.add_succ_r. exact G.
      * intros G j y H. specialize (G (S j) y H). rewrite Nat.add_succ_r in G. exact G.
    + intros H. rewrite (I2 H). lia.
    + exists (a :: c). rewrite I3, F3, <- app_assoc. repeat split; cbn; auto.
Qed.

(* Initialization succeeds exactly if every command can be run, every target is well-formed, and each works, unless it's an optional target *)
Theorem init_succeeds w failed cmds targets s o : init w failed cmds targets = (s, o) ->
  (o = Opened <->
   (forall j c, nth_error cmds j = Some c -> can_run c /\ w j = FNone) /\
   (forall j t, nth_error targets j = Some t -> can_dial t /\ (w (length cmds + j) = FNone \/ is_optional t))).
Proof.
  unfold init. intros E. destruct (each (command w) cmds initial) as [s1 o1] eqn:E1.
  destruct (each_spec (command w) (fun c n => can_run c /\ w n = FNone) runs cmds) with (2 := E1) as (A1 & A2 & A3).
  { intros x z. pose proof (command_spec w x z) as H. destruct (command w x z) as [z' []]; [|exact H ..]. tauto. }
  cbn in A1, A2. destruct o1.
  - destruct (each (target w) targets s1) as [s2 o2] eqn:E2.
    destruct (each_spec (target w) (fun t n => can_dial t /\ (w n = FNone \/ is_optional t)) dials targets) with (2 := E2) as (B1 & _ & _).
    { intros x z. pose proof (target_spec w x z) as H. destruct (target w x z) as [z' []]; [|exact H ..]. tauto. }
    rewrite (A2 eq_refl) in B1. assert (Eo : o2 = o) by (destruct o2; injection E; auto). subst o2.
    rewrite B1. destruct A1 as [A1 _]. specialize (A1 eq_refl). tauto.
  - injection E as <- <-. split; [discriminate|]. intros [H _]. apply A1 in H. discriminate.
  - injection E as <- <-. split; [discriminate|]. intros [H _]. apply A1 in H. discriminate.
Qed.
Print Assumptions init_succeeds.
Lemma calls_close failed s : calls (s_log (close_all failed s)) = calls (s_log s).
Proof.
  cbn. unfold calls. rewrite map_app, filter_app. rewrite <- (app_nil_r (filter is_call (map snd (s_log s)))) at 2. f_equal.
  induction (s_conns s) as [|[i k] l IH]; cbn; auto. rewrite map_app, filter_app, IH, app_nil_r. unfold close_conn. rewrite map_map. cbn. rewrite map_id.
  destruct k; cbn; [destruct (failed i)|]; reflexivity.
Qed.
(* The commands are run in order, then the targets connected to; nothing else is, and all are if it succeeds *)
Theorem init_order w failed cmds targets s o : init w failed cmds targets = (s, o) ->
  exists a b, calls (s_log s) = a ++ b /\ Forall2 runs (firstn (length a) cmds) a /\ Forall2 dials (firstn (length b) targets) b /\
    (b <> [] -> length a = length cmds) /\ (o = Opened -> length a = length cmds /\ length b = length targets).
Proof.
  unfold init. intros E. destruct (each (command w) cmds initial) as [s1 o1] eqn:E1.
  destruct (each_spec (command w) (fun c n => can_run c /\ w n = FNone) runs cmds) with (2 := E1) as (_ & _ & a & A1 & A2 & A3).
  { intros x z. pose proof (command_spec w x z) as H. destruct (command w x z) as [z' []]; [|exact H ..]. tauto. }
  cbn in A1. destruct o1.
  - destruct (each (target w) targets s1) as [s2 o2] eqn:E2.
    destruct (each_spec (target w) (fun t n => can_dial t /\ (w n = FNone \/ is_optional t)) dials targets) with (2 := E2) as (_ & _ & b & B1 & B2 & B3).
    { intros x z. pose proof (target_spec w x z) as H. destruct (target w x z) as [z' []]; [|exact H ..]. tauto. }
    assert (G : calls (s_log s) = calls (s_log s2) /\ o2 = o) by (destruct o2; injection E as <- <-; rewrite ?calls_close; auto).
    destruct G as [G ->]. exists a, b. rewrite G, B1, A1. split; [reflexivity|]. split; [exact A2|]. split; [exact B2|]. split; [intros _; exact (A3 eq_refl)|]. intros H. split; [exact (A3 eq_refl)|exact (B3 H)].
  - injection E as <- <-. exists a, []. rewrite app_nil_r, calls_close, A1. split; [reflexivity|]. split; [exact A2|]. split; [constructor|]. split; [congruence|discriminate].
  - injection E as <- <-. exists a, []. rewrite app_nil_r, calls_close, A1. split; [reflexivity|]. split; [exact A2|]. split; [constructor|]. split; [congruence|discriminate].
Qed.
Print Assumptions init_order.
Lemma each_conns f (kept : nat -> list (nat * kind)) l :
  (forall x s, match f x s with (s', Opened) => s_next s' = S (s_next s) /\ s_conns s' = s_conns s ++ kept (s_next s) | _ => True end) ->
  forall s s', each f l s = (s', Opened) -> s_next s' = s_next s + length l /\ s_conns s' = s_conns s ++ flat_map kept (seq (s_next s) (length l)).
Proof.
  intros F. induction l as [|x l IH]; cbn; intros s s' E.
  - injection E as <-. rewrite app_nil_r. split; [lia|reflexivity].
  - specialize (F x s). destruct (f x s) as [s1 []]; try discriminate. destruct F as [F1 F2]. destruct (IH _ _ E) as [I1 I2]. rewrite F1 in *.
    split; [lia|]. rewrite I2, F2, <- app_assoc. reflexivity.
Qed.
(* The connections are exactly those of the commands and of the targets to which connecting succeeded, in order *)
Theorem init_conns w failed cmds targets s : init w failed cmds targets = (s, Opened) ->
  s_conns s = map (fun i => (i, Executed)) (seq 0 (length cmds)) ++
              flat_map (fun i => match w i with FNone => [(i, Dialed)] | _ => [] end) (seq (length cmds) (length targets)).
Proof.
  unfold init. intros E. destruct (each (command w) cmds initial) as [s1 []] eqn:E1; try discriminate.
  apply (each_conns (command w) (fun i => [(i, Executed)])) in E1.
  2: { intros x z. pose proof (command_spec w x z) as H. destruct (command w x z) as [z' []]; tauto. }
  destruct (each (target w) targets s1) as [s2 []] eqn:E2; try discriminate. injection E as <-.
  apply (each_conns (target w) (fun i => match w i with FNone => [(i, Dialed)] | _ => [] end)) in E2.
  2: { intros x z. pose proof (target_spec w x z) as H. destruct (target w x z) as [z' []]; tauto. }
  cbn in E1. destruct E1 as [N1 C1], E2 as [N2 C2]. rewrite C2, C1, N1. cbn [app]. f_equal.
Qed.
Print Assumptions init_conns.

(* ---- Processes' error output ---- *)
Definition newline : Z := 10.
Definition is_line (l : bytes) : Prop := exists t, l = t ++ [newline] /\ ~ In newline t.
Lemma log_from_spec o : forall l, ~ In newline l ->
  Forall is_line (log_from l o) /\ exists rest, l ++ o = concat (log_from l o) ++ rest /\ ~ In newline rest.
Proof.
  induction o as [|c o IH]; cbn; intros l N.
  - split; [constructor|]. exists l. rewrite app_nil_r. auto.
  - destruct (Z.eqb_spec c 10) as [->|H].
    + destruct (IH []) as (I1 & rest & I2 & I3); [intros []|]. split; [constructor; auto; exists l; auto|].
      exists rest. cbn. cbn in I2. rewrite <- !app_assoc. cbn. rewrite <- I2. auto.
    + destruct (IH (l ++ [c])) as (I1 & rest & I2 & I3).
      { rewrite in_app_iff. intros [X|[X|[]]]; auto. }
      split; auto. exists rest. rewrite <- I2, <- app_assoc. auto.
Qed.
(* Every line is logged, whole and in order; only what follows the last newline isn't *)
Theorem lines_logged output : Forall is_line (logged output) /\ exists rest, output = concat (logged output) ++ rest /\ ~ In newline rest.
Proof. apply (log_from_spec output []). intros []. Qed.
Print Assumptions lines_logged.

(* ---- What isn't so ---- *)
(* "A malformed command or target is reported as an error": a blank one, or "@path" alone, crashes the server *)
Theorem malformed_is_an_error_refuted : exists cmds targets, forall w failed, w 0 = FNone ->
  snd (init w failed cmds targets) = Panicked /\ snd (init w failed [] [[32]%Z]) = Panicked /\ snd (init w failed [[32]%Z] []) = Panicked.
Proof. exists [[64;47;120]%Z], []. intros w failed H. unfold init, command. cbn. rewrite H. cbn. auto. Qed.
Print Assumptions malformed_is_an_error_refuted.
(* "Close terminates the process": it's only told to if closing its connection fails; otherwise Close waits for it to exit by itself *)
Theorem close_terminates_refuted : exists w cmds s, init w (fun _ => false) cmds [] = (s, Opened) /\ s_conns s <> [] /\
  forall i, ~ In (i, Signal) (s_log (fst (close (fun _ => false) s))).
Proof.
  exists (fun _ => FNone), [[120]%Z]. eexists. split; [reflexivity|]. split; [discriminate|]. intros i. cbn. intuition congruence.
Qed.
Print Assumptions close_terminates_refuted.
(* "All that the process prints is logged" *)
Theorem output_logged_refuted : exists output, concat (logged output) <> output.
Proof. exists [120]%Z. discriminate. Qed.
Print Assumptions output_logged_refuted.

(* ---- Examples ---- *)
(* "@/x y", "z"; then "h insecure optional": the second command can't be started *)
Example failing_start : exists s, init (fun i => if i =? 1 then FStart else FNone) (fun _ => true) [[64;47;120;32;121]%Z; [122]%Z] [[104]%Z] = (s, Failed) /\
  acts_of (s_log s) 0 = [Exec [47;120]%Z [[121]%Z]; Get Sock1; Get Sock2; Get Stderr; Get Process; Get Client; Put Sock2; Put Sock1; Put Client; Signal; Put Process; Put Stderr] /\
  acts_of (s_log s) 1 = [Exec [122]%Z [[122]%Z]; Get Sock1; Get Sock2; Get Stderr; Put Stderr; Put Sock2; Put Sock1] /\ acts_of (s_log s) 2 = [].
Proof. eexists. repeat split; reflexivity. Qed.
Example starting : exists s, init (fun i => if i =? 1 then FDial else FNone) (fun _ => true) [[120]%Z] [[104;32]%Z ++ optional_; [105;32]%Z ++ insecure_] = (s, Opened) /\
  s_conns s = [(0, Executed); (2, Dialed)] /\ acts_of (s_log s) 1 = [Dial [104]%Z false; Warn] /\ acts_of (s_log s) 2 = [Dial [105]%Z true; Get Client].
Proof. eexists. repeat split; reflexivity. Qed.
Example two_lines : logged [97;10;98;10;99]%Z = [[97;10]; [98;10]]%Z.
Proof. reflexivity. Qed.
