(* QueryProps.v: C38: query parameters are not silently ignored. *)
From Verif Require Import Base Query.
From Coq Require Import Permutation.

(* ---- specification: how requests are spelled ---- *)
Definition tags (k : string) (l : list string) : query := map (fun v => (k, v)) l.
(* An optional parameter: absent is the same as empty. *)
Inductive optional (k v : string) : query -> Prop :=
| absent : v = "" -> optional k v []
| given : optional k v [(k, v)].
Inductive logging : query -> Prop := log_none : logging [] | log_empty : logging [("log", "")] | log_all : logging [("log", "*")].
Definition function_name (f : string) : Prop := f = "" \/ function_ok f = true.
Definition also (b : bool) (a : string) : query := if b then [("action", a)] else [].
Inductive spells : action -> query -> Prop :=
| s_call ws pin f mt it pf pl : optional "function" f pf -> function_name f -> logging pl -> (pin = false -> mt = []) ->
    spells (ACall ws pin f mt it) (("action", "call") :: also pin "pin" ++ tags "module.tag" mt ++ pf ++ tags "instance.tag" it ++ pl)
| s_launch pin f i mt it sus pf pi pl : optional "function" f pf -> function_name f -> optional "instance" i pi -> logging pl -> (pin = false -> mt = []) ->
    spells (ALaunch pin f i mt it sus) (("action", "launch") :: also pin "pin" ++ also sus "suspend" ++ tags "module.tag" mt ++ pf ++ pi ++ tags "instance.tag" it ++ pl)
| s_download : spells ADownload []
| s_upload mt : spells (AUpload mt) (("action", "pin") :: tags "module.tag" mt)
| s_known : spells AKnown []
| s_pin mt : spells (APin mt) (("action", "pin") :: tags "module.tag" mt)
| s_unpin : spells AUnpin [("action", "unpin")]
| s_source mt : spells (ASource mt) (("action", "pin") :: tags "module.tag" mt)
| s_info : spells AInfo []
| s_io ws : spells (AIO ws) [("action", "io")]
| s_resume f pf pl : optional "function" f pf -> function_name f -> logging pl -> spells (AResume f) (("action", "resume") :: pf ++ pl)
| s_snapshot mt : spells (ASnapshot mt) (("action", "snapshot") :: tags "module.tag" mt)
| s_delete : spells ADelete [("action", "delete")]
| s_update : spells AUpdate [("action", "update")]
| s_debug : spells ADebug [("action", "debug")]
(* repeating an action of an instance changes nothing *)
| s_kill n m : spells (AKill (Nat.ltb 0 m)) (("action", "kill") :: repeat ("action", "kill") n ++ repeat ("action", "wait") m)
| s_suspend n m : spells (ASuspend (Nat.ltb 0 m)) (("action", "suspend") :: repeat ("action", "suspend") n ++ repeat ("action", "wait") m)
| s_wait m : spells AWait (("action", "wait") :: repeat ("action", "wait") m)
| s_features l : (forall x, In x l -> x = "scope" \/ x = "*") ->
    spells (AFeatures (if existsb (String.eqb "*") l then 2 else if existsb (String.eqb "scope") l then 1 else 0)) (tags "feature" l).
(* The actions of the endpoints (webapi.go:63-86). *)
Definition offers (e : endpoint) (a : action) : bool :=
  match e, a with
  | GetFeatures, AFeatures _ => true
  | GetKnown, (ACall true _ _ _ _ | ADownload) => true
  | PutKnown, (ACall false _ _ _ _ | ALaunch _ _ _ _ _ _ | AUpload _) => true
  | PostKnown, (ACall false false _ _ _ | ALaunch false _ _ _ _ _ | AKnown | APin _ | AUnpin) => true
  | GetSource, ACall true _ _ _ _ => true
  | PostSource, (ACall false _ _ _ _ | ALaunch _ _ _ _ _ _ | ASource _) => true
  | GetInstance, AIO true => true
  | PostInstance, (AInfo | AIO false | AResume _ | ASnapshot _ | ADelete | AUpdate | ADebug | AKill _ | ASuspend _ | AWait) => true
  | _, _ => false
  end.
(* The order of parameters does not matter, except that of tags. *)
Definition same (q1 q2 : query) : Prop :=
  Permutation q1 q2 /\ vals q1 "module.tag" = vals q2 "module.tag" /\ vals q1 "instance.tag" = vals q2 "instance.tag".
(* The suspend action is accepted, and ignored, with other actions than launch. *)
Definition ignores_suspend (e : endpoint) (a : action) : bool :=
  match e, a with
  | PutKnown, (ACall _ _ _ _ _ | AUpload _) => true
  | PostKnown, (ACall _ _ _ _ _ | APin _ | AUnpin) => true
  | PostSource, ACall _ _ _ _ _ => true
  | _, _ => false
  end.

(* ---- basic facts ---- *)
Local Arguments String.eqb : simpl never.
(* evaluate comparisons of literals *)
Ltac lit a b := let r := eval vm_compute in (String.eqb a b) in match r with true => change (String.eqb a b) with true in * | false => change (String.eqb a b) with false in * end.
Ltac seval := repeat match goal with |- context [String.eqb ?a ?b] => lit a b | H : context [String.eqb ?a ?b] |- _ => lit a b end.
Lemma vals_app a b k : vals (a ++ b) k = vals a k ++ vals b k.
Proof. unfold vals. now rewrite filter_app, map_app. Qed.
Lemma del_app a b k : del (a ++ b) k = del a k ++ del b k.
Proof. apply filter_app. Qed.
Lemma vals_tags k l k' : vals (tags k l) k' = if String.eqb k k' then l else [].
Proof. unfold vals, tags. destruct (String.eqb k k') eqn:E; induction l as [|v l IH]; cbn; rewrite ?E; cbn; rewrite ?IH; reflexivity. Qed.
Lemma del_tags k l k' : del (tags k l) k' = if String.eqb k k' then [] else tags k l.
Proof. unfold del, tags. destruct (String.eqb k k') eqn:E; induction l as [|v l IH]; cbn; rewrite ?E; cbn; rewrite ?IH; reflexivity. Qed.
Lemma vals_del q k k' : vals (del q k) k' = if String.eqb k k' then [] else vals q k'.
Proof.
  unfold vals, del. induction q as [|[a v] q IH]; cbn; [now destruct (String.eqb k k')|].
  destruct (String.eqb_spec a k) as [->|N]; cbn.
  - rewrite IH. destruct (String.eqb_spec k k'); reflexivity.
  - destruct (String.eqb_spec a k') as [->|N']; cbn; rewrite IH.
    + destruct (String.eqb_spec k k'); [congruence|reflexivity].
    + reflexivity.
Qed.
Lemma perm_pop q k : Permutation q (tags k (vals q k) ++ del q k).
Proof.
  unfold tags, vals, del. induction q as [|[a v] q IH]; cbn; [constructor|]. destruct (String.eqb_spec a k) as [->|N]; cbn.
  - now constructor.
  - apply Permutation_cons_app. exact IH.
Qed.
Lemma popAction_spec q a : if fst (popAction q a) then Permutation q (("action", a) :: snd (popAction q a)) else snd (popAction q a) = q /\ ~ In ("action", a) q.
Proof.
  induction q as [|[k v] q IH]; cbn; [tauto|]. destruct (String.eqb_spec k "action") as [->|N]; cbn.
  - destruct (String.eqb_spec v a) as [->|N']; cbn; [reflexivity|]. destruct (fst (popAction q a)).
    + rewrite perm_swap. now constructor.
    + destruct IH as [-> NI]. split; [reflexivity|]. intros [J|J]; [congruence|contradiction].
  - destruct (fst (popAction q a)).
    + rewrite perm_swap. now constructor.
    + destruct IH as [-> NI]. split; [reflexivity|]. intros [J|J]; [congruence|contradiction].
Qed.
Lemma popAction_vals q a k : k <> "action" -> vals (snd (popAction q a)) k = vals q k.
Proof.
  intros NE. unfold vals. induction q as [|[k' v] q IH]; cbn; [reflexivity|]. destruct (String.eqb_spec k' "action") as [->|N]; cbn.
  - destruct (String.eqb_spec v a) as [->|N']; cbn.
    + destruct (String.eqb_spec "action" k); [congruence|]. destruct (String.eqb_spec "action" k); [congruence|reflexivity].
    + destruct (String.eqb_spec "action" k); [congruence|exact IH].
  - destruct (String.eqb k' k); cbn; [now f_equal|exact IH].
Qed.
Lemma perm_vals q1 q2 k : Permutation q1 q2 -> Permutation (vals q1 k) (vals q2 k).
Proof.
  intros P. unfold vals. apply Permutation_map. induction P; cbn; auto.
  - destruct (String.eqb (fst x) k); [now constructor|exact IHP].
  - destruct (String.eqb (fst x) k), (String.eqb (fst y) k); try reflexivity. apply perm_swap.
  - etransitivity; eassumption.
Qed.
Lemma perm_del q1 q2 k : Permutation q1 q2 -> Permutation (del q1 k) (del q2 k).
Proof.
  intros P. unfold del. induction P; cbn; auto.
  - destruct (negb (String.eqb (fst x) k)); [now constructor|exact IHP].
  - destruct (negb (String.eqb (fst x) k)), (negb (String.eqb (fst y) k)); try reflexivity. apply perm_swap.
  - etransitivity; eassumption.
Qed.
Lemma same_sym a b : same a b -> same b a.
Proof. intros (A & B & C). split; [now apply Permutation_sym|split; congruence]. Qed.
Lemma same_trans a b c : same a b -> same b c -> same a c.
Proof. intros (A & B & C) (D & E & F). split; [etransitivity; eassumption|split; congruence]. Qed.

(* ---- soundness: everything in the query is in the action ---- *)
Lemma popLast_inv get q0 q k f er a : popLastParam get q0 q k f = Out er (Some a) -> exists v, vals q k = [v] /\ f v (del q k) = Out er (Some a) /\ Permutation q ((k, v) :: del q k).
Proof.
  unfold popLastParam. intros H. destruct (vals q k) as [|v [|w l]] eqn:V; [destruct q0; [destruct get|]; discriminate| |discriminate].
  exists v. split; [reflexivity|]. split; [exact H|]. pose proof (perm_pop q k) as P. rewrite V in P. exact P.
Qed.
Lemma popOpt_inv q k f er a : popOptionalLastParam q k f = Out er (Some a) -> exists v pk q', optional k v pk /\ f v q' = Out er (Some a) /\ Permutation q (pk ++ q') /\ (forall k', k' <> k -> vals q' k' = vals q k') /\ vals q' k = [].
Proof.
  unfold popOptionalLastParam. intros H. pose proof (perm_pop q k) as P. destruct (vals q k) as [|v [|w l]] eqn:V; [| |discriminate].
  - exists "", [], q. split; [now constructor|]. split; [exact H|]. split; [reflexivity|]. auto.
  - exists v, [(k, v)], (del q k). split; [constructor|]. split; [exact H|]. split; [exact P|]. split.
    + intros k' N. rewrite vals_del. destruct (String.eqb_spec k k'); [congruence|reflexivity].
    + rewrite vals_del. now rewrite String.eqb_refl.
Qed.
Lemma popFun_inv q f er a : popFunction q f = Out er (Some a) -> exists v pk q', optional "function" v pk /\ function_name v /\ f v q' = Out er (Some a) /\ Permutation q (pk ++ q') /\ (forall k', k' <> "function" -> vals q' k' = vals q k').
Proof.
  unfold popFunction. intros H. apply popOpt_inv in H. destruct H as (v & pk & q' & O & H & P & V & _). exists v, pk, q'. split; [exact O|].
  destruct (String.eqb_spec v "") as [->|N]; cbn in H; [split; [now left|auto]|]. destruct (function_ok v) eqn:F; cbn in H; [|discriminate]. split; [now right|auto].
Qed.
Lemma popLog_inv q f er a : popOptionalLastLogParam q f = Out er (Some a) -> exists pk q', logging pk /\ f q' = Out er (Some a) /\ Permutation q (pk ++ q') /\ (forall k', k' <> "log" -> vals q' k' = vals q k').
Proof.
  unfold popOptionalLastLogParam. intros H. apply popOpt_inv in H. destruct H as (v & pk & q' & O & H & P & V & _). exists pk, q'.
  destruct (String.eqb_spec v "") as [->|N]; cbn in H.
  - split; [inversion O; subst; constructor|auto].
  - destruct (String.eqb_spec v "*") as [->|N']; [|discriminate]. split; [inversion O; subst; [discriminate|constructor]|auto].
Qed.
Lemma noParams_inv q o er a : noParams q o = Out er (Some a) -> q = [] /\ o = Out er (Some a).
Proof. destruct q; cbn; [auto|discriminate]. Qed.
Lemma callParams_inv q f er a : callParams q f = Out er (Some a) -> exists fn pf it pl, optional "function" fn pf /\ function_name fn /\ logging pl /\
  f fn it = Out er (Some a) /\ Permutation q (pf ++ tags "instance.tag" it ++ pl) /\ it = vals q "instance.tag" /\ vals q "module.tag" = [].
Proof.
  unfold callParams. intros H. apply popFun_inv in H. destruct H as (fn & pf & q1 & O & F & H & P & V). cbn in H.
  apply popLog_inv in H. destruct H as (pl & q2 & L & H & P2 & V2). apply noParams_inv in H. destruct H as [-> H].
  exists fn, pf, (vals q1 "instance.tag"), pl. split; [exact O|]. split; [exact F|]. split; [exact L|]. split; [exact H|]. split; [|split].
  - rewrite P. apply Permutation_app_head. rewrite (perm_pop q1 "instance.tag") at 1. apply Permutation_app_head. now rewrite app_nil_r in P2.
  - apply V. discriminate.
  - rewrite <- (V "module.tag") by discriminate. specialize (V2 "module.tag" ltac:(discriminate)). rewrite vals_del in V2. seval. cbn in V2. now rewrite <- V2.
Qed.
Lemma launchParams_inv q f er a : launchParams q f = Out er (Some a) -> exists fn pf i pi it pl, optional "function" fn pf /\ function_name fn /\ optional "instance" i pi /\ logging pl /\
  f fn i it = Out er (Some a) /\ Permutation q (pf ++ pi ++ tags "instance.tag" it ++ pl) /\ it = vals q "instance.tag" /\ vals q "module.tag" = [].
Proof.
  unfold launchParams. intros H. apply popFun_inv in H. destruct H as (fn & pf & q1 & O & F & H & P & V).
  apply popOpt_inv in H. destruct H as (i & pi & q3 & OI & H & P3 & V3 & _). cbn in H.
  apply popLog_inv in H. destruct H as (pl & q2 & L & H & P2 & V2). apply noParams_inv in H. destruct H as [-> H].
  exists fn, pf, i, pi, (vals q3 "instance.tag"), pl. split; [exact O|]. split; [exact F|]. split; [exact OI|]. split; [exact L|]. split; [exact H|]. split; [|split].
  - rewrite P. apply Permutation_app_head. rewrite P3. apply Permutation_app_head. rewrite (perm_pop q3 "instance.tag") at 1. apply Permutation_app_head. now rewrite app_nil_r in P2.
  - rewrite V3, V by discriminate. reflexivity.
  - rewrite <- (V "module.tag") by discriminate. rewrite <- (V3 "module.tag") by discriminate. specialize (V2 "module.tag" ltac:(discriminate)). rewrite vals_del in V2. seval. cbn in V2. now rewrite <- V2.
Qed.
Lemma modTags_inv (b : bool) q : Permutation q (tags "module.tag" (fst (popModTags b q)) ++ snd (popModTags b q)) /\
  fst (popModTags b q) = (if b then vals q "module.tag" else []) /\
  (b = true -> vals (snd (popModTags b q)) "module.tag" = []) /\ (b = false -> snd (popModTags b q) = q) /\
  (forall k, k <> "module.tag" -> vals (snd (popModTags b q)) k = vals q k).
Proof.
  destruct b; cbn [popModTags popOptionalParams fst snd].
  - split; [apply perm_pop|]. split; [reflexivity|]. split; [intros _; rewrite vals_del; now seval|]. split; [discriminate|].
    intros k N. rewrite vals_del. destruct (String.eqb_spec "module.tag" k); [congruence|reflexivity].
  - cbn. split; [reflexivity|]. repeat split; auto; discriminate.
Qed.
Lemma popPin_inv q b q' : popAction q b = (fst (popAction q b), q') -> True. Proof. auto. Qed.
Lemma popAction_also q a : Permutation q (also (fst (popAction q a)) a ++ snd (popAction q a)).
Proof. pose proof (popAction_spec q a) as H. destruct (fst (popAction q a)); cbn; [exact H|]. destruct H as [-> _]. reflexivity. Qed.
Lemma flags_spec l : forall k s w, flags l k s w =
  if forallb (fun a => String.eqb a "kill" || String.eqb a "suspend" || String.eqb a "wait") l
  then Some (k || existsb (String.eqb "kill") l, s || existsb (String.eqb "suspend") l, w || existsb (String.eqb "wait") l) else None.
Proof.
  induction l as [|a l IH]; intros k s w; cbn; [now rewrite !orb_false_r|].
  destruct (String.eqb_spec a "kill") as [->|N1]; [cbn; rewrite IH; seval; cbn; now rewrite ?orb_true_r|].
  destruct (String.eqb_spec a "suspend") as [->|N2]; [cbn; rewrite IH; seval; cbn; now rewrite ?orb_true_r|].
  destruct (String.eqb_spec a "wait") as [->|N3]; [cbn; rewrite IH; seval; cbn; now rewrite ?orb_true_r|]. reflexivity.
Qed.
(* A list of two kinds of words is a permutation of the ones and the others. *)
Lemma two_kinds (x y : string) l : x <> y -> (forall z, In z l -> z = x \/ z = y) -> exists n m, Permutation l (repeat x n ++ repeat y m) /\
  existsb (String.eqb x) l = Nat.ltb 0 n /\ existsb (String.eqb y) l = Nat.ltb 0 m.
Proof.
  intros N. induction l as [|z l IH]; intros H; [exists 0%nat, 0%nat; cbn; auto|].
  destruct IH as (n & m & P & E1 & E2); [intros w W; apply H; now right|]. destruct (H z (or_introl eq_refl)) as [->| ->].
  - exists (S n), m. split; [cbn; now constructor|]. cbn [existsb]. rewrite String.eqb_refl. split; [reflexivity|]. destruct (String.eqb_spec y x); [congruence|exact E2].
  - exists n, (S m). split; [cbn [repeat]; apply Permutation_cons_app; exact P|]. cbn [existsb]. rewrite String.eqb_refl. split; [|reflexivity]. destruct (String.eqb_spec x y); [congruence|exact E1].
Qed.
Lemma tags_repeat k v n : tags k (repeat v n) = repeat (k, v) n.
Proof. induction n; cbn; [reflexivity|]. f_equal. exact IHn. Qed.
Lemma tags_app k a b : tags k (a ++ b) = tags k a ++ tags k b.
Proof. apply map_app. Qed.
Lemma tags_perm k a b : Permutation a b -> Permutation (tags k a) (tags k b).
Proof. apply Permutation_map. Qed.
Lemma existsb_false_in x l : existsb (String.eqb x) l = false -> ~ In x l.
Proof. intros E I. assert (X : existsb (String.eqb x) l = true) by (apply existsb_exists; exists x; split; [exact I|apply String.eqb_refl]). congruence. Qed.
Lemma instanceFlags_inv l q er a : instanceFlags l q = Out er (Some a) -> q = [] /\ er = false /\ exists ps, spells a ps /\ Permutation (tags "action" l) ps /\ offers PostInstance a = true /\ vals ps "module.tag" = [] /\ vals ps "instance.tag" = [].
Proof.
  unfold instanceFlags. rewrite flags_spec. destruct (forallb _ l) eqn:F; [|discriminate]. cbn [orb].
  assert (K : forall z, In z l -> z = "kill" \/ z = "suspend" \/ z = "wait").
  { intros z I. rewrite forallb_forall in F. specialize (F z I). cbv beta in F. destruct (String.eqb_spec z "kill"), (String.eqb_spec z "suspend"), (String.eqb_spec z "wait"); auto; discriminate. }
  assert (VR : forall n v k, k <> "action" -> vals (repeat ("action", v) n) k = []).
  { intros n v k N. unfold vals. induction n; cbn; [reflexivity|]. destruct (String.eqb_spec "action" k); [congruence|exact IHn]. }
  assert (VC : forall v q k, k <> "action" -> vals (("action", v) :: q) k = vals q k).
  { intros v q1 k N. unfold vals. cbn. destruct (String.eqb_spec "action" k); [congruence|reflexivity]. }
  destruct (existsb (String.eqb "kill") l) eqn:EK, (existsb (String.eqb "suspend") l) eqn:ES; cbn [andb negb orb].
  - rewrite andb_false_r. cbn. discriminate.
  - intros H. apply noParams_inv in H. destruct H as [-> H]. injection H as <- <-. split; [reflexivity|]. split; [reflexivity|].
    destruct (two_kinds "kill" "wait" l ltac:(discriminate)) as (n & m & P & E1 & E2); [intros z I; destruct (K z I) as [A|[A|A]]; auto; subst; exfalso; exact (existsb_false_in _ _ ES I)|].
    rewrite E2. rewrite EK in E1. destruct n as [|n]; [discriminate|]. exists (("action", "kill") :: repeat ("action", "kill") n ++ repeat ("action", "wait") m).
    split; [constructor|]. split; [|split; [reflexivity|]]. { rewrite (tags_perm _ _ _ P), tags_app, !tags_repeat. reflexivity. }
    rewrite !VC, !vals_app, !VR by discriminate. auto.
  - intros H. apply noParams_inv in H. destruct H as [-> H]. injection H as <- <-. split; [reflexivity|]. split; [reflexivity|].
    destruct (two_kinds "suspend" "wait" l ltac:(discriminate)) as (n & m & P & E1 & E2); [intros z I; destruct (K z I) as [A|[A|A]]; auto; subst; exfalso; exact (existsb_false_in _ _ EK I)|].
    rewrite E2. rewrite ES in E1. destruct n as [|n]; [discriminate|]. exists (("action", "suspend") :: repeat ("action", "suspend") n ++ repeat ("action", "wait") m).
    split; [constructor|]. split; [|split; [reflexivity|]]. { rewrite (tags_perm _ _ _ P), tags_app, !tags_repeat. reflexivity. }
    rewrite !VC, !vals_app, !VR by discriminate. auto.
  - destruct (existsb (String.eqb "wait") l) eqn:EW; cbn [andb]; [|discriminate]. intros H. apply noParams_inv in H. destruct H as [-> H]. injection H as <- <-. split; [reflexivity|]. split; [reflexivity|].
    destruct (two_kinds "kill" "wait" l ltac:(discriminate)) as (n & m & P & E1 & E2); [intros z I; destruct (K z I) as [A|[A|A]]; auto; subst; exfalso; exact (existsb_false_in _ _ ES I)|].
    rewrite EK in E1. rewrite EW in E2. destruct n as [|n]; [|discriminate]. destruct m as [|m]; [discriminate|]. exists (("action", "wait") :: repeat ("action", "wait") m).
    split; [constructor|]. split; [|split; [reflexivity|]]. { rewrite (tags_perm _ _ _ P), tags_app, !tags_repeat. reflexivity. }
    rewrite !VC, !VR by discriminate. auto.
Qed.
Lemma features_spec l : forall n, (n <= 2)%nat -> features_level l n =
  if forallb (fun a => String.eqb a "scope" || String.eqb a "*") l
  then Some (if existsb (String.eqb "*") l then 2%nat else if existsb (String.eqb "scope") l then (if Nat.eqb n 0 then 1%nat else n) else n) else None.
Proof.
  induction l as [|a l IH]; intros n L; cbn; [reflexivity|].
  destruct (String.eqb_spec a "scope") as [->|N1].
  - cbn. rewrite IH by (destruct (Nat.eqb n 0); lia). seval. cbn. destruct (forallb _ l); [|reflexivity]. f_equal. destruct (existsb (String.eqb "*") l); [reflexivity|].
    destruct (Nat.eqb_spec n 0) as [->|NE]; cbn; [now destruct (existsb _ l)|]. destruct (Nat.eqb_spec n 0); [lia|]. now destruct (existsb _ l).
  - destruct (String.eqb_spec a "*") as [->|N2]; cbn.
    + rewrite IH by lia. seval. cbn. destruct (forallb _ l); [|reflexivity]. f_equal. destruct (existsb (String.eqb "*") l), (existsb (String.eqb "scope") l); reflexivity.
    + reflexivity.
Qed.
Lemma perm3 {A} (a b : list A) x r : Permutation (a ++ b ++ x :: r) (x :: a ++ b ++ r).
Proof. rewrite !app_assoc. apply Permutation_sym, Permutation_middle. Qed.
Lemma perm4 {A} (a b c : list A) x r : Permutation (a ++ b ++ c ++ x :: r) (x :: a ++ b ++ c ++ r).
Proof. rewrite !app_assoc. apply Permutation_sym, Permutation_middle. Qed.
Lemma perm_last {A} (a b c : list A) x r : Permutation (a ++ b ++ c ++ x :: r) ((x :: a ++ c ++ r) ++ b).
Proof. rewrite perm4. cbn. constructor. rewrite <- !app_assoc. apply Permutation_app_head. rewrite Permutation_app_comm, <- app_assoc. reflexivity. Qed.
Lemma vals_cons k v q k' : vals ((k, v) :: q) k' = (if String.eqb k k' then [v] else []) ++ vals q k'.
Proof. unfold vals. cbn. now destruct (String.eqb k k'). Qed.
Lemma vals_also b a k : k <> "action" -> vals (also b a) k = [].
Proof. intros N. destruct b; [|reflexivity]. unfold also. rewrite vals_cons. destruct (String.eqb_spec "action" k); [congruence|reflexivity]. Qed.
Lemma vals_opt k v p k' : optional k v p -> k <> k' -> vals p k' = [].
Proof. intros [E|] N; [reflexivity|]. rewrite vals_cons. destruct (String.eqb_spec k k'); [congruence|reflexivity]. Qed.
Lemma vals_log p k : logging p -> k <> "log" -> vals p k = [].
Proof. intros [] N; [reflexivity| |]; rewrite vals_cons; (destruct (String.eqb_spec "log" k); [congruence|reflexivity]). Qed.
Ltac vsolve := repeat first [rewrite vals_cons | rewrite vals_app | rewrite vals_tags | rewrite vals_also by discriminate | match goal with L : logging ?p |- context [vals ?p ?k] => rewrite (vals_log p k L) by discriminate | O : optional ?a ?b ?p |- context [vals ?p ?k] => rewrite (vals_opt a b p k O) by discriminate end]; seval; cbn [app]; rewrite ?app_nil_r.
Definition leftover (e : endpoint) (a : action) (er : bool) (extra : query) : Prop :=
  extra = [] /\ er = false \/
  extra = [("action", "suspend")] /\ ignores_suspend e a = true /\ er = match e with PostSource => true | _ => false end.

(* What is left of the values of a key when others are removed. *)
Lemma has_false q k : has q k = false -> vals q k = [].
Proof. unfold has. destruct (vals q k); [reflexivity|discriminate]. Qed.
Lemma leftover_also e a er b : (b = true -> ignores_suspend e a = true) -> er = (match e with PostSource => b | _ => false end) -> leftover e a er (also b "suspend").
Proof. intros H ->. destruct b; [right|left]; split; try reflexivity; [split; [auto|now destruct e]|now destruct e]. Qed.

Theorem query_all_used : forall e q er a, handle e q = Out er (Some a) ->
  offers e a = true /\ exists ps extra, spells a ps /\ same q (ps ++ extra) /\ leftover e a er extra.
Proof.
  intros e q er a H. destruct e; cbn [handle] in H.
  - (* GetFeatures *)
    unfold handleGetFeatures, popOptionalParams in H. apply noParams_inv in H. destruct H as [D H]. rewrite features_spec in H by lia.
    destruct (forallb _ _) eqn:F; [|discriminate]. injection H as <- <-. split; [reflexivity|]. exists (tags "feature" (vals q "feature")), []. split; [|split].
    + assert (X : forall z, In z (vals q "feature") -> z = "scope" \/ z = "*").
      { intros z I. rewrite forallb_forall in F. specialize (F z I). cbv beta in F. destruct (String.eqb_spec z "scope"), (String.eqb_spec z "*"); auto; discriminate. }
      exact (s_features _ X).
    + rewrite app_nil_r. pose proof (perm_pop q "feature") as P. rewrite D, app_nil_r in P. split; [exact P|].
      assert (VV : forall k, k <> "feature" -> vals q k = []).
      { intros k N. pose proof (vals_del q "feature" k) as V. rewrite D in V. destruct (String.eqb_spec "feature" k); [congruence|]. now rewrite <- V. }
      rewrite (VV "module.tag"), (VV "instance.tag") by discriminate. rewrite !vals_tags. seval. auto.
    + now left.
  - (* GetKnown *)
    unfold handleGetKnownModule in H. pose proof (popAction_also q "pin") as P1. pose proof (fun k => popAction_vals q "pin" k) as V1.
    destruct (popAction q "pin") as [pin q1]. cbn [fst snd] in *. destruct (modTags_inv pin q1) as (P2 & M & M1 & M0 & V2).
    destruct (popModTags pin q1) as [mt q2]. cbn [fst snd] in *. destruct (has q2 "action") eqn:HA.
    + apply popLast_inv in H. destruct H as (v & VA & H & P3). destruct (String.eqb_spec v "call") as [->|]; [|discriminate].
      apply callParams_inv in H. destruct H as (fn & pf & it & pl & O & F & L & H & P4 & EI & EM). injection H as <- <-. split; [reflexivity|].
      eexists. exists []. split; [apply (s_call true pin fn mt it pf pl O F L); intros ->; exact M|]. rewrite app_nil_r. split; [|now left].
      rewrite vals_del in EI, EM. seval. cbn in EI, EM. split; [rewrite P1, P2, P3, P4; apply perm3|]. vsolve. split.
      * rewrite <- V1 by discriminate. destruct pin; [now rewrite M|]. rewrite (M0 eq_refl) in EM. now rewrite M.
      * rewrite <- V1, <- V2 by discriminate. now rewrite EI.
    + destruct pin; [discriminate|]. apply noParams_inv in H. destruct H as [-> H]. injection H as <- <-. split; [reflexivity|]. exists [], []. split; [constructor|]. split; [|now left].
      rewrite <- (M0 eq_refl) in *. rewrite M in P2. cbn in P1. apply Permutation_sym, Permutation_nil in P1. subst q. split; auto.
  - (* PutKnown *)
    unfold handlePutKnownModule in H. pose proof (popAction_also q "pin") as P1. pose proof (fun k => popAction_vals q "pin" k) as V1.
    destruct (popAction q "pin") as [pin q1]. cbn [fst snd] in *. pose proof (popAction_also q1 "suspend") as P1'. pose proof (fun k => popAction_vals q1 "suspend" k) as V1'.
    destruct (popAction q1 "suspend") as [sus q1']. cbn [fst snd] in *. destruct (modTags_inv pin q1') as (P2 & M & M1 & M0 & V2).
    destruct (popModTags pin q1') as [mt q2]. cbn [fst snd] in *. destruct (has q2 "action") eqn:HA.
    + apply popLast_inv in H. destruct H as (v & VA & H & P3). destruct (String.eqb_spec v "call") as [->|]; [|destruct (String.eqb_spec v "launch") as [->|]; [|discriminate]].
      * apply callParams_inv in H. destruct H as (fn & pf & it & pl & O & F & L & H & P4 & EI & EM). injection H as <- <-. split; [reflexivity|].
        eexists. exists (also sus "suspend"). split; [apply (s_call false pin fn mt it pf pl O F L); intros ->; exact M|]. split; [|now apply leftover_also].
        rewrite vals_del in EI, EM. seval. cbn in EI, EM. split; [rewrite P1, P1', P2, P3, P4; apply perm_last|]. vsolve. split.
        { rewrite <- V1, <- V1' by discriminate. destruct pin; [now rewrite M|]. rewrite (M0 eq_refl) in EM. now rewrite M. }
        { rewrite <- V1, <- V1', <- V2 by discriminate. now rewrite EI. }
      * apply launchParams_inv in H. destruct H as (fn & pf & i & pi & it & pl & O & F & OI & L & H & P4 & EI & EM). injection H as <- <-. split; [reflexivity|].
        eexists. exists []. split; [apply (s_launch pin fn i mt it sus pf pi pl O F OI L); intros ->; exact M|]. rewrite app_nil_r. split; [|now left].
        rewrite vals_del in EI, EM. seval. cbn in EI, EM. split; [rewrite P1, P1', P2, P3, P4; apply perm4|]. vsolve. split.
        { rewrite <- V1, <- V1' by discriminate. destruct pin; [now rewrite M|]. rewrite (M0 eq_refl) in EM. now rewrite M. }
        { rewrite <- V1, <- V1', <- V2 by discriminate. now rewrite EI. }
    + destruct pin; [|discriminate]. apply noParams_inv in H. destruct H as [-> H]. injection H as <- <-. split; [reflexivity|].
      eexists. exists (also sus "suspend"). split; [apply s_upload|]. split; [|now apply leftover_also].
      split; [rewrite P1, P1', P2, app_nil_r; cbn [also app]; constructor; apply Permutation_app_comm|]. vsolve. split; [rewrite <- V1, <- V1' by discriminate; now rewrite M|rewrite <- V1, <- V1', <- V2 by discriminate; reflexivity].
  - (* PostKnown *)
    unfold handlePostKnownModule in H. destruct (vals q "action") as [|v0 l0] eqn:VQ.
    + apply noParams_inv in H. destruct H as [-> H]. injection H as <- <-. split; [reflexivity|]. exists [], []. split; [constructor|]. split; [repeat split; constructor|now left].
    + clear v0 l0 VQ. pose proof (popAction_also q "suspend") as P1. pose proof (fun k => popAction_vals q "suspend" k) as V1.
      destruct (popAction q "suspend") as [sus q1]. cbn [fst snd] in *. apply popLast_inv in H. destruct H as (v & VA & H & P3).
      destruct (String.eqb_spec v "call") as [->|]; [|destruct (String.eqb_spec v "launch") as [->|]; [|destruct (String.eqb_spec v "pin") as [->|]; [|destruct (String.eqb_spec v "unpin") as [->|]; [|discriminate]]]].
      * apply callParams_inv in H. destruct H as (fn & pf & it & pl & O & F & L & H & P4 & EI & EM). injection H as <- <-. split; [reflexivity|].
        eexists. exists (also sus "suspend"). split; [apply (s_call false false fn [] it pf pl O F L); auto|]. split; [|now apply leftover_also].
        rewrite vals_del in EI, EM. seval. cbn in EI, EM. split; [rewrite P1, P3, P4; exact (perm_last [] (also sus "suspend") [] _ _)|]. vsolve.
        rewrite <- !V1 by discriminate. rewrite EM, EI. auto.
      * apply launchParams_inv in H. destruct H as (fn & pf & i & pi & it & pl & O & F & OI & L & H & P4 & EI & EM). injection H as <- <-. split; [reflexivity|].
        eexists. exists []. split; [apply (s_launch false fn i [] it sus pf pi pl O F OI L); auto|]. rewrite app_nil_r. split; [|now left].
        rewrite vals_del in EI, EM. seval. cbn in EI, EM. split; [rewrite P1, P3, P4; exact (perm3 [] (also sus "suspend") _ _)|]. vsolve.
        rewrite <- !V1 by discriminate. rewrite EM, EI. auto.
      * cbn in H. apply noParams_inv in H. destruct H as [D H]. remember (vals (del q1 "action") "module.tag") as mt eqn:EM. injection H as <- <-. split; [reflexivity|].
        eexists. exists (also sus "suspend"). split; [apply s_pin|]. split; [|now apply leftover_also]. pose proof (perm_pop (del q1 "action") "module.tag") as P4. rewrite <- EM, D, app_nil_r in P4.
        pose proof (vals_del (del q1 "action") "module.tag" "instance.tag") as V4. rewrite D in V4. rewrite !vals_del in *. seval. cbn in V4.
        split; [rewrite P1, P3, P4; exact (perm_last [] (also sus "suspend") [] _ _)|]. vsolve. rewrite <- !V1 by discriminate. auto.
      * apply noParams_inv in H. destruct H as [D H]. injection H as <- <-. split; [reflexivity|]. pose proof (fun k => vals_del q1 "action" k) as V4.
        eexists. exists (also sus "suspend"). split; [apply s_unpin|]. split; [|now apply leftover_also]. rewrite D in *. split; [rewrite P1, P3; apply Permutation_app_comm|]. vsolve.
        pose proof (V4 "module.tag") as V5. pose proof (V4 "instance.tag") as V6. seval. rewrite <- !V1 by discriminate. auto.
  - (* GetSource *)
    unfold handleGetModuleSource in H. pose proof (popAction_also q "pin") as P1. pose proof (fun k => popAction_vals q "pin" k) as V1.
    destruct (popAction q "pin") as [pin q1]. cbn [fst snd] in *. destruct (modTags_inv pin q1) as (P2 & M & M1 & M0 & V2).
    destruct (popModTags pin q1) as [mt q2]. cbn [fst snd] in *.
    apply popLast_inv in H. destruct H as (v & VA & H & P3). destruct (String.eqb_spec v "call") as [->|]; [|discriminate].
    apply callParams_inv in H. destruct H as (fn & pf & it & pl & O & F & L & H & P4 & EI & EM). injection H as <- <-. split; [reflexivity|].
    eexists. exists []. split; [apply (s_call true pin fn mt it pf pl O F L); intros ->; exact M|]. rewrite app_nil_r. split; [|now left].
    rewrite vals_del in EI, EM. seval. cbn in EI, EM. split; [rewrite P1, P2, P3, P4; apply perm3|]. vsolve. split.
    + rewrite <- V1 by discriminate. destruct pin; [now rewrite M|]. rewrite (M0 eq_refl) in EM. now rewrite M.
    + rewrite <- V1, <- V2 by discriminate. now rewrite EI.
  - (* PostSource *)
    unfold handlePostModuleSource in H. pose proof (popAction_also q "pin") as P1. pose proof (fun k => popAction_vals q "pin" k) as V1.
    destruct (popAction q "pin") as [pin q1]. cbn [fst snd] in *. destruct (modTags_inv pin q1) as (P2 & M & M1 & M0 & V2).
    destruct (popModTags pin q1) as [mt q2]. cbn [fst snd] in *. destruct (has q2 "action") eqn:HA.
    + pose proof (popAction_also q2 "suspend") as P1'. pose proof (fun k => popAction_vals q2 "suspend" k) as V1'.
      destruct (popAction q2 "suspend") as [sus q3]. cbn [fst snd] in *.
      apply popLast_inv in H. destruct H as (v & VA & H & P3). destruct (String.eqb_spec v "call") as [->|]; [|destruct (String.eqb_spec v "launch") as [->|]; [|discriminate]].
      * destruct (callParams (del q3 "action") _) as [ce ca] eqn:C. cbn [err act] in H. assert (ca = Some a) by congruence. subst ca.
        apply callParams_inv in C. destruct C as (fn & pf & it & pl & O & F & L & C & P4 & EI & EM). injection C as <- <-. injection H as <-. split; [reflexivity|].
        eexists. exists (also sus "suspend"). split; [apply (s_call false pin fn mt it pf pl O F L); intros ->; exact M|]. split; [|apply leftover_also; [auto|apply orb_false_r]].
        rewrite vals_del in EI, EM. seval. cbn in EI, EM.
        split; [rewrite P1, P2, P1', P3, P4; rewrite (Permutation_app_swap_app (tags "module.tag" mt)); apply perm_last|]. vsolve. split.
        { rewrite <- V1 by discriminate. destruct pin; [now rewrite M|]. rewrite V1' in EM by discriminate. rewrite (M0 eq_refl) in EM. now rewrite M. }
        { rewrite <- V1, <- V2, <- V1' by discriminate. now rewrite EI. }
      * apply launchParams_inv in H. destruct H as (fn & pf & i & pi & it & pl & O & F & OI & L & H & P4 & EI & EM). injection H as <- <-. split; [reflexivity|].
        eexists. exists []. split; [apply (s_launch pin fn i mt it sus pf pi pl O F OI L); intros ->; exact M|]. rewrite app_nil_r. split; [|now left].
        rewrite vals_del in EI, EM. seval. cbn in EI, EM.
        split; [rewrite P1, P2, P1', P3, P4; rewrite (Permutation_app_swap_app (tags "module.tag" mt)); apply perm4|]. vsolve. split.
        { rewrite <- V1 by discriminate. destruct pin; [now rewrite M|]. rewrite V1' in EM by discriminate. rewrite (M0 eq_refl) in EM. now rewrite M. }
        { rewrite <- V1, <- V2, <- V1' by discriminate. now rewrite EI. }
    + destruct pin; [|discriminate]. apply noParams_inv in H. destruct H as [-> H]. injection H as <- <-. split; [reflexivity|].
      eexists. exists []. split; [apply s_source|]. rewrite app_nil_r. split; [|now left].
      split; [rewrite P1, P2, app_nil_r; reflexivity|]. vsolve. split; [rewrite <- V1 by discriminate; now rewrite M|rewrite <- V1, <- V2 by discriminate; reflexivity].
  - (* GetInstance *)
    unfold handleGetInstance in H. apply popLast_inv in H. destruct H as (v & VA & H & P). destruct (String.eqb_spec v "io") as [->|]; [|discriminate].
    pose proof (fun k => vals_del q "action" k) as V. apply noParams_inv in H. destruct H as [D H]. injection H as <- <-. split; [reflexivity|]. rewrite D in *. exists [("action", "io")], []. split; [constructor|]. split; [|now left].
    split; [exact P|]. vsolve. pose proof (V "module.tag") as V5. pose proof (V "instance.tag") as V6. seval. auto.
  - (* PostInstance *)
    unfold handlePostInstance, popOptionalParams in H. pose proof (perm_pop q "action") as P. pose proof (fun k => vals_del q "action" k) as V.
    assert (FL : forall l, l = vals q "action" -> instanceFlags l (del q "action") = Out er (Some a) -> offers PostInstance a = true /\ exists ps extra, spells a ps /\ same q (ps ++ extra) /\ leftover PostInstance a er extra).
    { intros l -> X. apply instanceFlags_inv in X. destruct X as (D & -> & ps & S & PS & OF & E1 & E2). split; [exact OF|]. exists ps, []. split; [exact S|]. split; [|now left].
      rewrite app_nil_r. rewrite D, app_nil_r in P. split; [now rewrite P|]. rewrite E1, E2. pose proof (V "module.tag") as V5. pose proof (V "instance.tag") as V6. rewrite D in *. seval. auto. }
    pose proof (V "module.tag") as V5. pose proof (V "instance.tag") as V6. seval.
    destruct (vals q "action") as [|v [|w l]] eqn:VA.
    + apply noParams_inv in H. destruct H as [D H]. injection H as <- <-. split; [reflexivity|]. exists [], []. split; [constructor|]. split; [|now left]. rewrite D in *. split; [exact P|auto].
    + destruct (String.eqb_spec v "io") as [->|]; [|destruct (String.eqb_spec v "resume") as [->|]; [|destruct (String.eqb_spec v "snapshot") as [->|]; [|destruct (String.eqb_spec v "delete") as [->|]; [|destruct (String.eqb_spec v "update") as [->|]; [|destruct (String.eqb_spec v "debug") as [->|]]]]]].
      * apply noParams_inv in H. destruct H as [D H]. injection H as <- <-. split; [reflexivity|]. rewrite D in *. eexists. exists []. split; [constructor|]. split; [|now left]. split; [exact P|]. vsolve. auto.
      * apply popFun_inv in H. destruct H as (fn & pf & q1 & O & F & H & P1 & V1). apply popLog_inv in H. destruct H as (pl & q2 & L & H & P2 & V2). apply noParams_inv in H. destruct H as [-> H]. injection H as <- <-. split; [reflexivity|].
        eexists. exists []. split; [apply (s_resume fn pf pl O F L)|]. rewrite app_nil_r. split; [|now left]. rewrite app_nil_r in P2. split; [rewrite P, P1, P2; reflexivity|]. vsolve.
        rewrite <- V5, <- V6. rewrite <- !V1, <- !V2 by discriminate. auto.
      * cbn in H. apply noParams_inv in H. destruct H as [D H]. remember (vals (del q "action") "module.tag") as mt eqn:EM. injection H as <- <-. split; [reflexivity|]. eexists. exists []. split; [apply s_snapshot|]. rewrite app_nil_r. split; [|now left].
        pose proof (perm_pop (del q "action") "module.tag") as P4. rewrite <- EM in P4. pose proof (vals_del (del q "action") "module.tag" "instance.tag") as V4. rewrite D, ?app_nil_r in *. seval. cbn in V4. split; [rewrite P, P4; reflexivity|]. vsolve. rewrite <- V6, <- V4. auto.
      * apply noParams_inv in H. destruct H as [D H]. injection H as <- <-. split; [reflexivity|]. rewrite D in *. eexists. exists []. split; [constructor|]. split; [|now left]. split; [exact P|]. vsolve. auto.
      * apply noParams_inv in H. destruct H as [D H]. injection H as <- <-. split; [reflexivity|]. rewrite D in *. eexists. exists []. split; [constructor|]. split; [|now left]. split; [exact P|]. vsolve. auto.
      * apply noParams_inv in H. destruct H as [D H]. injection H as <- <-. split; [reflexivity|]. rewrite D in *. eexists. exists []. split; [constructor|]. split; [|now left]. split; [exact P|]. vsolve. auto.
      * apply (FL [v] eq_refl H).
    + apply (FL (v :: w :: l) eq_refl H).
Qed.
Print Assumptions query_all_used.

(* ---- the other direction: what is spelled is done ---- *)
Lemma same_del q1 q2 k : same q1 q2 -> same (del q1 k) (del q2 k).
Proof. intros (P & A & B). split; [now apply perm_del|]. rewrite !vals_del. rewrite A, B. auto. Qed.
Lemma perm_short {A} (l1 l2 : list A) : Permutation l1 l2 -> (l1 = l2) \/ (exists a b l c d l', l1 = a :: b :: l /\ l2 = c :: d :: l').
Proof.
  intros P. pose proof (Permutation_length P) as L. destruct l1 as [|a [|b l1]], l2 as [|c [|d l2]]; try discriminate; [now left| |].
  - left. apply Permutation_length_1 in P. now rewrite P.
  - right. eauto 10.
Qed.
Lemma same_last get p1 p2 q1 q2 k f g : same p1 p2 -> same q1 q2 -> (forall v a b, same a b -> f v a = g v b) -> popLastParam get p1 q1 k f = popLastParam get p2 q2 k g.
Proof.
  intros S0 S F. unfold popLastParam. destruct (perm_short _ _ (perm_vals _ _ k (proj1 S))) as [E|(a & b & l & c & d & l' & E1 & E2)].
  - rewrite <- E. destruct (vals q1 k) as [|v [|w l]].
    + destruct S0 as [P _]. destruct p1, p2; auto; [now apply Permutation_nil_cons in P|now apply Permutation_sym, Permutation_nil_cons in P].
    + apply F. now apply same_del.
    + reflexivity.
  - now rewrite E1, E2.
Qed.
Lemma same_opt q1 q2 k f g : same q1 q2 -> (forall v a b, same a b -> f v a = g v b) -> popOptionalLastParam q1 k f = popOptionalLastParam q2 k g.
Proof.
  intros S F. unfold popOptionalLastParam. destruct (perm_short _ _ (perm_vals _ _ k (proj1 S))) as [E|(a & b & l & c & d & l' & E1 & E2)].
  - rewrite <- E. destruct (vals q1 k) as [|v [|w l]]; [now apply F|apply F; now apply same_del|reflexivity].
  - now rewrite E1, E2.
Qed.
Lemma same_fun q1 q2 f g : same q1 q2 -> (forall v a b, same a b -> f v a = g v b) -> popFunction q1 f = popFunction q2 g.
Proof. intros S F. apply same_opt; [exact S|]. intros v a b AB. destruct (_ && _); [reflexivity|now apply F]. Qed.
Lemma same_log q1 q2 f g : same q1 q2 -> (forall a b, same a b -> f a = g b) -> popOptionalLastLogParam q1 f = popOptionalLastLogParam q2 g.
Proof. intros S F. apply same_opt; [exact S|]. intros v a b AB. destruct (_ || _); [now apply F|reflexivity]. Qed.
Lemma same_no q1 q2 o : same q1 q2 -> noParams q1 o = noParams q2 o.
Proof. intros [P _]. destruct q1, q2; auto; [now apply Permutation_nil_cons in P|now apply Permutation_sym, Permutation_nil_cons in P]. Qed.
Lemma same_has q1 q2 k : same q1 q2 -> has q1 k = has q2 k.
Proof. intros S. unfold has. destruct (perm_short _ _ (perm_vals _ _ k (proj1 S))) as [->|(a & b & l & c & d & l' & -> & ->)]; reflexivity. Qed.
Lemma same_action q1 q2 a : same q1 q2 -> fst (popAction q1 a) = fst (popAction q2 a) /\ same (snd (popAction q1 a)) (snd (popAction q2 a)).
Proof.
  intros (P & A & B). pose proof (popAction_spec q1 a) as S1. pose proof (popAction_spec q2 a) as S2.
  assert (V : forall k, k <> "action" -> vals q1 k = vals q2 k -> vals (snd (popAction q1 a)) k = vals (snd (popAction q2 a)) k) by (intros k N E; now rewrite !popAction_vals).
  destruct (fst (popAction q1 a)), (fst (popAction q2 a)).
  - split; [reflexivity|]. split; [|split; apply V; auto; discriminate]. rewrite S1, S2 in P. now apply Permutation_cons_inv in P.
  - exfalso. destruct S2 as [_ N]. apply N. apply (Permutation_in _ P). apply (Permutation_in _ (Permutation_sym S1)). now left.
  - exfalso. destruct S1 as [_ N]. apply N. apply (Permutation_in _ (Permutation_sym P)). apply (Permutation_in _ (Permutation_sym S2)). now left.
  - split; [reflexivity|]. destruct S1 as [-> _], S2 as [-> _]. split; auto.
Qed.
Lemma same_mod b q1 q2 : same q1 q2 -> fst (popModTags b q1) = fst (popModTags b q2) /\ same (snd (popModTags b q1)) (snd (popModTags b q2)).
Proof. intros S. destruct b; cbn; [|auto]. split; [apply S|now apply same_del]. Qed.
Lemma same_call q1 q2 f : same q1 q2 -> callParams q1 f = callParams q2 f.
Proof.
  intros S. apply same_fun; [exact S|]. intros v a b AB. cbn. destruct AB as (P & A & B) eqn:X. rewrite B. apply same_log; [now apply same_del|]. intros c d CD. now apply same_no.
Qed.
Lemma same_launch q1 q2 f : same q1 q2 -> launchParams q1 f = launchParams q2 f.
Proof.
  intros S. apply same_fun; [exact S|]. intros v a b AB. apply same_opt; [exact AB|]. intros i a' b' AB'. cbn. destruct AB' as (P & A & B) eqn:X. rewrite B. apply same_log; [now apply same_del|]. intros c d CD. now apply same_no.
Qed.
Lemma forallb_perm {A} (f : A -> bool) l1 l2 : Permutation l1 l2 -> forallb f l1 = forallb f l2.
Proof. induction 1; cbn; auto; [now rewrite IHPermutation|destruct (f x), (f y); reflexivity|congruence]. Qed.
Lemma existsb_perm {A} (f : A -> bool) l1 l2 : Permutation l1 l2 -> existsb f l1 = existsb f l2.
Proof. induction 1; cbn; auto; [now rewrite IHPermutation|destruct (f x), (f y); reflexivity|congruence]. Qed.
Lemma same_flags l1 l2 q1 q2 : Permutation l1 l2 -> same q1 q2 -> instanceFlags l1 q1 = instanceFlags l2 q2.
Proof.
  intros P S. unfold instanceFlags. rewrite !flags_spec. rewrite (forallb_perm _ _ _ P), !(existsb_perm _ _ _ P). destruct (forallb _ l2); [|reflexivity].
  rewrite !(same_no _ _ _ S). reflexivity.
Qed.
Lemma handle_same e q1 q2 : same q1 q2 -> handle e q1 = handle e q2.
Proof.
  intros S. destruct e; cbn [handle].
  - unfold handleGetFeatures, popOptionalParams. rewrite !features_spec by lia. pose proof (perm_vals _ _ "feature" (proj1 S)) as P.
    rewrite (forallb_perm _ _ _ P), !(existsb_perm _ _ _ P). apply same_no. now apply same_del.
  - unfold handleGetKnownModule. destruct (same_action q1 q2 "pin" S) as [E S1]. destruct (popAction q1 "pin") as [p1 r1], (popAction q2 "pin") as [p2 r2]. cbn [fst snd] in *. subst p2.
    destruct (same_mod p1 r1 r2 S1) as [EM S2]. destruct (popModTags p1 r1) as [m1 t1], (popModTags p1 r2) as [m2 t2]. cbn [fst snd] in *. subst m2.
    rewrite (same_has _ _ _ S2). destruct (has t2 "action").
    + apply same_last; auto. intros v a b AB. destruct (String.eqb v "call"); [now apply same_call|reflexivity].
    + destruct p1; [reflexivity|now apply same_no].
  - unfold handlePutKnownModule. destruct (same_action q1 q2 "pin" S) as [E S1]. destruct (popAction q1 "pin") as [p1 r1], (popAction q2 "pin") as [p2 r2]. cbn [fst snd] in *. subst p2.
    destruct (same_action r1 r2 "suspend" S1) as [E' S1']. destruct (popAction r1 "suspend") as [x1 w1], (popAction r2 "suspend") as [x2 w2]. cbn [fst snd] in *. subst x2.
    destruct (same_mod p1 w1 w2 S1') as [EM S2]. destruct (popModTags p1 w1) as [m1 t1], (popModTags p1 w2) as [m2 t2]. cbn [fst snd] in *. subst m2.
    rewrite (same_has _ _ _ S2). destruct (has t2 "action").
    + apply same_last; auto. intros v a b AB. destruct (String.eqb v "call"); [now apply same_call|]. destruct (String.eqb v "launch"); [now apply same_launch|reflexivity].
    + destruct p1; [now apply same_no|reflexivity].
  - unfold handlePostKnownModule. pose proof (same_has q1 q2 "action" S) as HH. unfold has in HH. destruct (vals q1 "action") as [|v1 l1], (vals q2 "action") as [|v2 l2]; try discriminate; [now apply same_no|]. clear v1 l1 v2 l2 HH.
    destruct (same_action q1 q2 "suspend" S) as [E S1]. destruct (popAction q1 "suspend") as [p1 r1], (popAction q2 "suspend") as [p2 r2]. cbn [fst snd] in *. subst p2.
    apply same_last; auto. intros v a b AB. destruct (String.eqb v "call"); [now apply same_call|]. destruct (String.eqb v "launch"); [now apply same_launch|].
    destruct (String.eqb v "pin"); [cbn; rewrite (proj1 (proj2 AB)); apply same_no; now apply same_del|]. destruct (String.eqb v "unpin"); [now apply same_no|reflexivity].
  - unfold handleGetModuleSource. destruct (same_action q1 q2 "pin" S) as [E S1]. destruct (popAction q1 "pin") as [p1 r1], (popAction q2 "pin") as [p2 r2]. cbn [fst snd] in *. subst p2.
    destruct (same_mod p1 r1 r2 S1) as [EM S2]. destruct (popModTags p1 r1) as [m1 t1], (popModTags p1 r2) as [m2 t2]. cbn [fst snd] in *. subst m2.
    apply same_last; auto. intros v a b AB. destruct (String.eqb v "call"); [now apply same_call|reflexivity].
  - unfold handlePostModuleSource. destruct (same_action q1 q2 "pin" S) as [E S1]. destruct (popAction q1 "pin") as [p1 r1], (popAction q2 "pin") as [p2 r2]. cbn [fst snd] in *. subst p2.
    destruct (same_mod p1 r1 r2 S1) as [EM S2]. destruct (popModTags p1 r1) as [m1 t1], (popModTags p1 r2) as [m2 t2]. cbn [fst snd] in *. subst m2.
    rewrite (same_has _ _ _ S2). destruct (has t2 "action").
    + destruct (same_action t1 t2 "suspend" S2) as [E' S2']. destruct (popAction t1 "suspend") as [x1 w1], (popAction t2 "suspend") as [x2 w2]. cbn [fst snd] in *. subst x2.
      apply same_last; auto. intros v a b AB. destruct (String.eqb v "call"); [now rewrite (same_call a b _ AB)|]. destruct (String.eqb v "launch"); [now apply same_launch|reflexivity].
    + destruct p1; [now apply same_no|reflexivity].
  - unfold handleGetInstance. apply same_last; auto. intros v a b AB. destruct (String.eqb v "io"); [now apply same_no|reflexivity].
  - unfold handlePostInstance, popOptionalParams. pose proof (perm_vals _ _ "action" (proj1 S)) as P. pose proof (same_del _ _ "action" S) as SD.
    destruct (perm_short _ _ P) as [E|(a & b & l & c & d & l' & E1 & E2)].
    + rewrite <- E. destruct (vals q1 "action") as [|v [|w l]]; [now apply same_no| |now apply same_flags].
      destruct (String.eqb v "io"); [now apply same_no|]. destruct (String.eqb v "resume").
      { apply same_fun; [exact SD|]. intros f a b AB. apply same_log; [exact AB|]. intros a' b' AB'. now apply same_no. }
      destruct (String.eqb v "snapshot"); [rewrite (proj1 (proj2 SD)); apply same_no; now apply same_del|].
      destruct (String.eqb v "delete"); [now apply same_no|]. destruct (String.eqb v "update"); [now apply same_no|]. destruct (String.eqb v "debug"); [now apply same_no|]. now apply same_flags.
    + rewrite E1, E2 in *. now apply same_flags.
Qed.
(* computing with spelled queries *)
Lemma del_cons k v q k' : del ((k, v) :: q) k' = (if String.eqb k k' then [] else [(k, v)]) ++ del q k'.
Proof. unfold del. cbn. now destruct (String.eqb k k'). Qed.
Lemma del_opt k v p k' : optional k v p -> del p k' = if String.eqb k k' then [] else p.
Proof. intros [E|]; [now destruct (String.eqb k k')|]. rewrite del_cons. now destruct (String.eqb k k'). Qed.
Lemma del_log p k' : logging p -> del p k' = if String.eqb "log" k' then [] else p.
Proof. intros [| |]; [now destruct (String.eqb "log" k')| |]; rewrite del_cons; now destruct (String.eqb "log" k'). Qed.
Lemma pop_app q1 q2 a : popAction (q1 ++ q2) a = if fst (popAction q1 a) then (true, snd (popAction q1 a) ++ q2) else (fst (popAction q2 a), q1 ++ snd (popAction q2 a)).
Proof.
  induction q1 as [|p q1 IH]; [cbn; now destruct (popAction q2 a)|]. cbn [app popAction]. destruct (_ && _); [reflexivity|]. rewrite IH. destruct (fst (popAction q1 a)); reflexivity.
Qed.
Lemma pop_none k q a : (forall p, In p q -> fst p = k) -> k <> "action" -> popAction q a = (false, q).
Proof.
  intros H N. induction q as [|p q IH]; [reflexivity|]. cbn. rewrite (H p) by now left. destruct (String.eqb_spec k "action"); [congruence|]. cbn. rewrite IH by (intros x X; apply H; now right). reflexivity.
Qed.
Lemma pop_tags k l a : k <> "action" -> popAction (tags k l) a = (false, tags k l).
Proof. apply pop_none. intros p I. apply in_map_iff in I. destruct I as (v & <- & _). reflexivity. Qed.
Lemma pop_opt k v p a : optional k v p -> k <> "action" -> popAction p a = (false, p).
Proof. intros O. apply pop_none. intros x I. destruct O; [contradiction|]. destruct I as [<-|[]]. reflexivity. Qed.
Lemma pop_log p a : logging p -> popAction p a = (false, p).
Proof. intros L. apply (pop_none "log"); [|discriminate]. intros x I. destruct L; [contradiction| |]; destruct I as [<-|[]]; reflexivity. Qed.
Lemma fun_spelled f pf r g : optional "function" f pf -> function_name f -> vals r "function" = [] -> del r "function" = r -> popFunction (pf ++ r) g = g f r.
Proof.
  intros O F V D. unfold popFunction, popOptionalLastParam. rewrite vals_app, V, app_nil_r. assert (C : negb (String.eqb f "") && negb (function_ok f) = false).
  { destruct F as [->| ->]; [now seval|now rewrite andb_false_r]. }
  destruct O as [->|]; cbn [app]; [seval; reflexivity|]. rewrite vals_cons, del_cons, D. seval. cbn. now rewrite C.
Qed.
Lemma opt_spelled k v p r g : optional k v p -> vals r k = [] -> del r k = r -> popOptionalLastParam (p ++ r) k g = g v r.
Proof.
  intros O V D. unfold popOptionalLastParam. rewrite vals_app, V, app_nil_r.
  destruct O as [->|]; cbn [app]; [reflexivity|]. rewrite vals_cons, del_cons, D, String.eqb_refl. reflexivity.
Qed.
Lemma log_spelled p g : logging p -> popOptionalLastLogParam p g = g [].
Proof.
  intros []; unfold popOptionalLastLogParam, popOptionalLastParam; [cbn; seval; reflexivity| |]; rewrite vals_cons, del_cons; seval; cbn; seval; reflexivity.
Qed.
Lemma call_spelled f pf it pl g : optional "function" f pf -> function_name f -> logging pl -> callParams (pf ++ tags "instance.tag" it ++ pl) g = g f it.
Proof.
  intros O F L. unfold callParams. rewrite (fun_spelled f pf) by (auto; rewrite ?vals_app, ?vals_tags, ?del_app, ?del_tags, ?(vals_log _ _ L), ?(del_log _ _ L) by discriminate; now seval).
  unfold popOptionalParams. rewrite vals_app, vals_tags, del_app, del_tags, (vals_log _ _ L), (del_log _ _ L) by discriminate. seval. rewrite app_nil_r. cbn [app]. now rewrite (log_spelled pl).
Qed.
Lemma launch_spelled f i pf pi it pl g : optional "function" f pf -> function_name f -> optional "instance" i pi -> logging pl -> launchParams (pf ++ pi ++ tags "instance.tag" it ++ pl) g = g f i it.
Proof.
  intros O F OI L. unfold launchParams. rewrite (fun_spelled f pf) by (auto; rewrite ?vals_app, ?vals_tags, ?del_app, ?del_tags, ?(vals_log _ _ L), ?(del_log _ _ L), ?(vals_opt _ _ _ _ OI), ?(del_opt _ _ _ _ OI) by discriminate; now seval).
  rewrite (opt_spelled "instance" i pi) by (auto; rewrite ?vals_app, ?vals_tags, ?del_app, ?del_tags, ?(vals_log _ _ L), ?(del_log _ _ L) by discriminate; now seval).
  unfold popOptionalParams. rewrite vals_app, vals_tags, del_app, del_tags, (vals_log _ _ L), (del_log _ _ L) by discriminate. seval. rewrite app_nil_r. cbn [app]. now rewrite (log_spelled pl).
Qed.
Lemma vals_repeat k v n k' : vals (repeat (k, v) n) k' = if String.eqb k k' then repeat v n else [].
Proof. rewrite <- tags_repeat. apply vals_tags. Qed.
Lemma del_repeat k v n k' : del (repeat (k, v) n) k' = if String.eqb k k' then [] else repeat (k, v) n.
Proof. rewrite <- tags_repeat. apply del_tags. Qed.
Ltac glit := match goal with |- context [String.eqb ?a ?b] => let r := eval vm_compute in (String.eqb a b) in match r with true => change (String.eqb a b) with true | false => change (String.eqb a b) with false end end.
Ltac qstep := first
  [ glit
  | progress (cbn [popAction fst snd app also andb popModTags popOptionalParams])
  | rewrite pop_tags by discriminate
  | match goal with
    | L : logging ?p |- context [popAction ?p ?k] => rewrite (pop_log p k L)
    | O : optional ?a ?b ?p |- context [popAction ?p ?k] => rewrite (pop_opt a b p k O) by discriminate
    | L : logging ?p |- context [vals ?p ?k] => rewrite (vals_log p k L) by discriminate
    | O : optional ?a ?b ?p |- context [vals ?p ?k] => rewrite (vals_opt a b p k O) by discriminate
    | L : logging ?p |- context [del ?p ?k] => rewrite (del_log p k L)
    | O : optional ?a ?b ?p |- context [del ?p ?k] => rewrite (del_opt a b p k O)
    end
  | rewrite pop_app | rewrite vals_cons | rewrite del_cons | rewrite vals_app | rewrite del_app | rewrite vals_tags | rewrite del_tags | rewrite vals_repeat | rewrite del_repeat | rewrite app_nil_r ].
Lemma vals_nil k : vals [] k = []. Proof. reflexivity. Qed.
Lemma del_nil k : del [] k = []. Proof. reflexivity. Qed.
Lemma tags_nil k : tags k [] = []. Proof. reflexivity. Qed.
Ltac qnorm := unfold has, popLastParam; repeat (first [rewrite vals_nil | rewrite del_nil | rewrite tags_nil | qstep]).

Lemma ex_rep x y n : existsb (String.eqb x) (repeat y n) = String.eqb x y && Nat.ltb 0 n.
Proof. induction n as [|n IH]; cbn; [now rewrite andb_false_r|]. rewrite IH, andb_true_r. destruct (String.eqb x y); reflexivity. Qed.
(* Every request that is spelled as documented, with its parameters in any order (except
   that of tags), is carried out as such. *)
Theorem query_spelled_works : forall e a ps q, offers e a = true -> spells a ps -> same q ps -> handle e q = do_ a.
Proof.
  intros e a ps q O S H. rewrite (handle_same e q ps H). clear q H.
  destruct S as [ws pin f mt it pf pl O1 F L M|pin f i mt it sus pf pi pl O1 F OI L M| | | | | | | | | | | | | |n m|n m|m|l K]; destruct e; try discriminate O; cbn [handle].
  - destruct ws; [|discriminate]. unfold handleGetKnownModule. destruct pin; [|rewrite (M eq_refl)]; qnorm; rewrite (call_spelled f) by auto; reflexivity.
  - destruct ws; [discriminate|]. unfold handlePutKnownModule. destruct pin; [|rewrite (M eq_refl)]; qnorm; rewrite (call_spelled f) by auto; reflexivity.
  - destruct ws, pin; try discriminate. unfold handlePostKnownModule. rewrite (M eq_refl). qnorm. rewrite (call_spelled f) by auto. reflexivity.
  - destruct ws; [|discriminate]. unfold handleGetModuleSource. destruct pin; [|rewrite (M eq_refl)]; qnorm; rewrite (call_spelled f) by auto; reflexivity.
  - destruct ws; [discriminate|]. unfold handlePostModuleSource. destruct pin; [|rewrite (M eq_refl)]; qnorm; rewrite (call_spelled f) by auto; reflexivity.
  - unfold handlePutKnownModule. destruct pin, sus; try rewrite (M eq_refl); qnorm; rewrite (launch_spelled f i) by auto; reflexivity.
  - destruct pin; [discriminate|]. unfold handlePostKnownModule. destruct sus; rewrite (M eq_refl); qnorm; rewrite (launch_spelled f i) by auto; reflexivity.
  - unfold handlePostModuleSource. destruct pin, sus; try rewrite (M eq_refl); qnorm; rewrite (launch_spelled f i) by auto; reflexivity.
  - reflexivity.
  - unfold handlePutKnownModule. qnorm. reflexivity.
  - reflexivity.
  - unfold handlePostKnownModule. qnorm. reflexivity.
  - unfold handlePostKnownModule. qnorm. reflexivity.
  - unfold handlePostModuleSource. qnorm. reflexivity.
  - reflexivity.
  - destruct ws; [|discriminate]. reflexivity.
  - destruct ws; [discriminate|]. reflexivity.
  - unfold handlePostInstance. qnorm. replace (pf ++ pl) with (pf ++ pl ++ []) by now rewrite app_nil_r. rewrite (fun_spelled f pf) by (auto; qnorm; reflexivity). rewrite app_nil_r, (log_spelled pl) by auto. reflexivity.
  - unfold handlePostInstance. qnorm. reflexivity.
  - reflexivity.
  - reflexivity.
  - reflexivity.
  - assert (FX : forall q, instanceFlags ("kill" :: repeat "kill" n ++ repeat "wait" m) [] = q -> q = do_ (AKill (Nat.ltb 0 m))).
    { intros q <-. unfold instanceFlags. rewrite flags_spec. cbn [forallb existsb]. rewrite forallb_app, !existsb_app. seval. cbn [orb andb].
      replace (forallb _ (repeat "kill" n)) with true by (symmetry; apply forallb_forall; intros x X; apply repeat_spec in X; subst x; now seval).
      replace (forallb _ (repeat "wait" m)) with true by (symmetry; apply forallb_forall; intros x X; apply repeat_spec in X; subst x; now seval).
      rewrite !ex_rep. seval. cbn [andb orb negb]. reflexivity. }
    unfold handlePostInstance. qnorm. destruct (repeat "kill" n ++ repeat "wait" m) eqn:E; [seval|]; now apply FX.
  - assert (FX : forall q, instanceFlags ("suspend" :: repeat "suspend" n ++ repeat "wait" m) [] = q -> q = do_ (ASuspend (Nat.ltb 0 m))).
    { intros q <-. unfold instanceFlags. rewrite flags_spec. cbn [forallb existsb]. rewrite forallb_app, !existsb_app. seval. cbn [orb andb].
      replace (forallb _ (repeat "suspend" n)) with true by (symmetry; apply forallb_forall; intros x X; apply repeat_spec in X; subst x; now seval).
      replace (forallb _ (repeat "wait" m)) with true by (symmetry; apply forallb_forall; intros x X; apply repeat_spec in X; subst x; now seval).
      rewrite !ex_rep. seval. cbn [andb orb negb]. reflexivity. }
    unfold handlePostInstance. qnorm. destruct (repeat "suspend" n ++ repeat "wait" m) eqn:E; [seval|]; now apply FX.
  - assert (FX : forall q, instanceFlags ("wait" :: repeat "wait" m) [] = q -> q = do_ AWait).
    { intros q <-. unfold instanceFlags. rewrite flags_spec. cbn [forallb existsb]. seval. cbn [orb andb].
      replace (forallb _ (repeat "wait" m)) with true by (symmetry; apply forallb_forall; intros x X; apply repeat_spec in X; subst x; now seval).
      rewrite !ex_rep. seval. cbn [andb orb negb]. reflexivity. }
    unfold handlePostInstance. qnorm. destruct (repeat "wait" m) eqn:E; [seval|]; now apply FX.
  - unfold handleGetFeatures. qnorm. rewrite features_spec by lia. cbn [noParams].
    replace (forallb _ l) with true; [reflexivity|]. symmetry. apply forallb_forall. intros x X. destruct (K x X) as [->| ->]; now seval.
Qed.
Print Assumptions query_spelled_works.

(* The claim in full fails: with any other action than launch, suspend is accepted and
   ignored; for a module source, an error is responded although the call is made. *)
Theorem query_suspend_ignored_refuted : forall f mt it, function_ok f = true ->
  handle PutKnown ([("action", "call"); ("action", "suspend"); ("action", "pin"); ("function", f)] ++ tags "module.tag" mt ++ tags "instance.tag" it) = do_ (ACall false true f mt it) /\
  handle PutKnown ([("action", "suspend"); ("action", "pin")] ++ tags "module.tag" mt) = do_ (AUpload mt) /\
  handle PostKnown ([("action", "pin"); ("action", "suspend")] ++ tags "module.tag" mt) = do_ (APin mt) /\
  handle PostSource [("action", "call"); ("action", "suspend")] = Out true (Some (ACall false false "" [] [])).
Proof.
  intros f mt it F. split; [|split; [|split; [|reflexivity]]].
  - cbn [handle]. unfold handlePutKnownModule. qnorm. unfold callParams, popFunction, popOptionalLastParam, popOptionalLastLogParam, popOptionalLastParam. qnorm. rewrite F. cbn [negb andb]. rewrite andb_false_r. qnorm. reflexivity.
  - cbn [handle]. unfold handlePutKnownModule. qnorm. reflexivity.
  - cbn [handle]. unfold handlePostKnownModule. qnorm. reflexivity.
Qed.
Print Assumptions query_suspend_ignored_refuted.

(* Examples: parameters which are unknown, repeated, contradictory or for something else. *)
Example query_examples :
  handle PutKnown [("function", "main"); ("action", "launch"); ("module.tag", "b"); ("action", "pin"); ("module.tag", "a"); ("log", "*"); ("action", "suspend")]
    = do_ (ALaunch true "main" "" ["b"; "a"] [] true) /\
  handle PostKnown [("action", "call"); ("action", "launch")] = fail /\
  handle PostKnown [("action", "call"); ("function", "a"); ("function", "b")] = fail /\
  handle PostKnown [("action", "unpin"); ("module.tag", "a")] = fail /\
  handle GetKnown [("action", "call"); ("module.tag", "a")] = fail /\
  handle GetKnown [("unknown", "")] = fail /\
  handle PostInstance [("action", "kill"); ("action", "suspend")] = fail /\
  handle PostInstance [("action", "wait"); ("action", "kill")] = do_ (AKill true) /\
  handle GetSource [] = empty.
Proof. vm_compute. auto 20. Qed.
(* The theorems' hypotheses are met by a non-trivial request. *)
Example query_spelled_case : exists ps, spells (ACall true true "f" ["x"; "y"] ["z"]) ps /\ offers GetSource (ACall true true "f" ["x"; "y"] ["z"]) = true /\
  same [("instance.tag", "z"); ("module.tag", "x"); ("action", "pin"); ("log", ""); ("module.tag", "y"); ("function", "f"); ("action", "call")] ps.
Proof.
  eexists. split; [|split].
  - apply (s_call true true "f" ["x"; "y"] ["z"] [("function", "f")] [("log", "")]); [constructor|right; reflexivity|constructor|discriminate].
  - reflexivity.
  - split; [|split; reflexivity]. cbn.
    apply (Permutation_cons_app [("action", "call"); ("action", "pin"); ("module.tag", "x"); ("module.tag", "y"); ("function", "f")]); cbn.
    apply (Permutation_cons_app [("action", "call"); ("action", "pin")]); cbn.
    apply (Permutation_cons_app [("action", "call")]); cbn.
    apply (Permutation_cons_app [("action", "call"); ("module.tag", "y"); ("function", "f")]); cbn.
    apply (Permutation_cons_app [("action", "call")]); cbn. apply perm_swap.
Qed.
