(* Server2Proofs.v: lemmas for ServerProps.v: accounts *)
From Verif Require Import ServerSpec ServerProofs BaseLemmas ListLemmas.

Lemma supplied_cons h e p m : supplied h p m -> supplied (e :: h) p m.
Proof. intros [H|[H|[i H]]]; [left|right; left|right; right; exists i]; now right. Qed.

(* what a stage has established *)
Definition tok (s : st) (g : stage) : Prop :=
  match g with
  | SReg o a _ => pid_of s o = Some (content a) /\ forall p, pri a = Some p -> supplied (hist s) p (content a)
  | SUse h o a => pid_of s o = Some h
  | SSnap p i m ts o => exists n, In (HInst p i (Some n)) (hist s)
  | _ => True
  end.

Record acct (s : st) : Prop := {
  a_wf : wf s;
  a_pin : forall p m, pinned (hist s) p m = match find_prog s m with None => None | Some o => find_pin s p o end;
  a_own : forall p i, owns (hist s) p i = option_map fst (find_inst s p i);
  a_sup : forall p m, pinned (hist s) p m <> None -> supplied (hist s) p m;
  a_inst : forall p i n o, In (p, i, n, o) (insts s) -> exists m, pid_of s o = Some m /\ supplied (hist s) p m /\ In (HLaunch p i m n) (hist s);
  a_new : forall p i m n, In (HLaunch p i m n) (hist s) -> (n < ninsts s)%nat;
  a_thr : Forall (tok s) (threads s);
  a_right : all_right (hist s)
}.

Lemma tok_mono s s' g : (forall o m, pid_of s o = Some m -> pid_of s' o = Some m) -> (exists l, hist s' = l ++ hist s) -> tok s g -> tok s' g.
Proof.
  intros P [l H] T. destruct g; cbn in *; auto.
  - destruct T as [A B]. split; auto. intros p Hp. rewrite H. specialize (B p Hp). clear -B. induction l; auto. cbn. now apply supplied_cons.
  - destruct T as [n T]. exists n. rewrite H. apply in_or_app. now right.
Qed.
Lemma toks_mono s s' : threads s' = threads s -> (forall o m, pid_of s o = Some m -> pid_of s' o = Some m) -> (exists l, hist s' = l ++ hist s) ->
  Forall (tok s) (threads s) -> Forall (tok s') (threads s').
Proof. intros -> P H F. rewrite Forall_forall in *. intros g Hg. eapply tok_mono; eauto. Qed.

Lemma toks_mono2 s s' : (forall o m, pid_of s o = Some m -> pid_of s' o = Some m) -> (exists l, hist s' = l ++ hist s) ->
  Forall (tok s) (threads s) -> Forall (tok s') (threads s).
Proof. intros P H F. rewrite Forall_forall in *. intros g Hg. eapply tok_mono; eauto. Qed.

Lemma acct_goto s t g s' : goto s t g = Ok s' -> acct s -> tok s g -> acct s'.
Proof.
  unfold goto. intros H A T. inversion H; subst s'; clear H. destruct A as [W P O S I N F R]. constructor; auto.
  - revert W. apply wf_ext; auto; reflexivity.
  - cbn [threads]. rewrite Forall_forall in *. intros x Hx. apply in_set in Hx as [->|Hx]; [exact T|now apply F].
Qed.

(* an event that changes neither pins nor ownership *)
Lemma acct_log s e : acct s -> right (hist s) e -> (forall p m, pinned (e :: hist s) p m = pinned (hist s) p m) ->
  (forall p i, owns (e :: hist s) p i = owns (hist s) p i) -> (forall p i m n, e <> HLaunch p i m n) -> acct (log s e).
Proof.
  intros [W P O S I N F R] H1 H2 H3 H4. constructor; cbn [log hist].
  - revert W. apply wf_ext; auto; reflexivity.
  - intros p m. rewrite H2. apply P.
  - intros p i. rewrite H3. apply O.
  - intros p m. rewrite H2. intros H. apply supplied_cons. now apply S.
  - intros p i n o Hi. destruct (I p i n o Hi) as (m & A & B & C). exists m. repeat split; auto using supplied_cons. now right.
  - intros p i m n [E|E]; [now apply H4 in E|eapply N; eauto].
  - revert F. apply toks_mono; auto. exists [e]. reflexivity.
  - split; auto.
Qed.

Lemma acct_objs s l : (forall o m, pid_of s o = Some m -> option_map pid (nth_error l o) = Some m) -> acct s -> acct (with_objs s l).
Proof.
  intros E [W P O S I N F R]. constructor; auto.
  - destruct W as [A B C D E1 F1 G H]. constructor; auto.
    intros m o K. apply E. now apply B.
  - intros p i n o Hi. destruct (I p i n o Hi) as (m & A & B & C). exists m. repeat split; auto.
    now apply E.
  - revert F. apply toks_mono; auto. exists []. reflexivity.
Qed.
Lemma ids_pid s l : same_ids (objs s) l -> forall o m, pid_of s o = Some m -> option_map pid (nth_error l o) = Some m.
Proof. intros E o m. unfold pid_of. now rewrite (same_ids_nth _ _ o E). Qed.
Lemma new_pid s b : forall o m, pid_of s o = Some m -> option_map pid (nth_error (objs s ++ [b]) o) = Some m.
Proof.
  intros o m H. unfold pid_of in H. destruct (nth_error (objs s) o) eqn:E; [|discriminate].
  rewrite nth_error_app1; [now rewrite E|]. apply nth_error_Some. congruence.
Qed.

Lemma eqb_dec_pin p o p' o' ts : pin_is p o (p', o', ts) = true <-> p' = p /\ o' = o.
Proof. unfold pin_is. cbn. rewrite andb_true_iff, Z.eqb_eq, Nat.eqb_eq. tauto. Qed.

Lemma find_map_pin p o ts l p' o' :
  find (pin_is p' o') (map (fun x => if pin_is p o x then (p, o, ts) else x) l)
  = option_map (fun x => if pin_is p o x then (p, o, ts) else x) (find (pin_is p' o') l).
Proof.
  induction l as [|[[q k] us] l IH]; auto. cbn [map find].
  assert (E: pin_is p' o' (if pin_is p o (q, k, us) then (p, o, ts) else (q, k, us)) = pin_is p' o' (q, k, us)).
  { destruct (pin_is p o (q, k, us)) eqn:X; auto. apply eqb_dec_pin in X as [-> ->]. reflexivity. }
  rewrite E. destruct (pin_is p' o' (q, k, us)); auto.
Qed.

Lemma prog_unique s m m' o : wf s -> In (m, o) (progs s) -> In (m', o) (progs s) -> m = m'.
Proof. intros W A B. apply (wf_progs s W) in A, B. congruence. Qed.

Lemma acct_ensure s p o ts s' : acct s -> canonical s o -> (forall m, pid_of s o = Some m -> supplied (hist s) p m) ->
  ensureProgramRef s p o ts = Ok s' -> acct s' /\ keeps s s' /\ (exists e, hist s' = e :: hist s).
Proof.
  intros A C Sup. unfold ensureProgramRef. destruct C as [m0 C].
  pose proof (wf_progs s (a_wf s A) _ _ C) as Po. specialize (Sup m0 Po).
  assert (Em: match nth_error (objs s) o with Some b => pid b | None => 0 end = m0).
  { unfold pid_of in Po. destruct (nth_error (objs s) o); cbn in Po; congruence. }
  rewrite Em. clear Em.
  assert (Fp: find_prog s m0 = Some o) by (apply in_find_prog; auto; apply A).
  assert (Pn: forall s1, (forall p' m', pinned (hist s1) p' m' = pinned (hist s) p' m') -> find_prog s1 = find_prog s ->
     (find_pin s1 p o = Some (match ts, find_pin s p o with [], Some old => old | _, _ => ts end)) ->
     (forall p' o', (p', o') <> (p, o) -> find_pin s1 p' o' = find_pin s p' o') ->
     forall p' m', pinned (HPin p m0 ts :: hist s1) p' m' = match find_prog s1 m' with None => None | Some o' => find_pin s1 p' o' end).
  { intros s1 H1 H2 H3 H4 p' m'. cbn [pinned]. rewrite H1, H2, (a_pin s A).
    destruct (Z.eqb_spec p p') as [<-|Np], (Z.eqb_spec m0 m') as [<-|Nm]; cbn [andb].
    - rewrite Fp, H3. destruct ts; auto. now destruct (find_pin s p o).
    - destruct (find_prog s m') as [o'|] eqn:Fm; auto. symmetry. apply H4. intros X. inversion X; subst o'.
      apply find_prog_in in Fm. apply Nm. eapply prog_unique; eauto. apply A.
    - destruct (find_prog s m0) as [o'|]; auto. symmetry. apply H4. congruence.
    - destruct (find_prog s m') as [o'|]; auto. symmetry. apply H4. congruence. }
  assert (Fin: forall s1, objs s1 = objs s \/ same_ids (objs s) (objs s1) -> closed s1 = closed s -> progs s1 = progs s -> insts s1 = insts s ->
     ninsts s1 = ninsts s -> threads s1 = threads s -> hist s1 = hist s -> wf s1 ->
     (find_pin s1 p o = Some (match ts, find_pin s p o with [], Some old => old | _, _ => ts end)) ->
     (forall p' o', (p', o') <> (p, o) -> find_pin s1 p' o' = find_pin s p' o') ->
     acct (log s1 (HPin p m0 ts)) /\ keeps s (log s1 (HPin p m0 ts)) /\ (exists e, hist (log s1 (HPin p m0 ts)) = e :: hist s)).
  { intros s1 E1 E2 E3 E4 E5 E6 E7 W1 H3 H4.
    assert (Ei: same_ids (objs s) (objs s1)) by (destruct E1 as [E1|E1]; [rewrite E1; reflexivity|exact E1]).
    assert (H1: forall p' m', pinned (hist s1) p' m' = pinned (hist s) p' m') by (now rewrite E7).
    assert (H2: find_prog s1 = find_prog s) by (unfold find_prog; now rewrite E3).
    pose proof (Pn s1 H1 H2 H3 H4) as PP. destruct A as [W P O S I N F R].
    split; [|split; [constructor; auto|exists (HPin p m0 ts); cbn; now rewrite E7]].
    constructor; cbn [log hist].
    - revert W1. apply wf_ext; auto; reflexivity.
    - exact PP.
    - intros p' i'. cbn [owns]. rewrite E7, O. unfold find_inst. cbn [log insts]. now rewrite E4.
    - intros p' m'. cbn [pinned]. rewrite E7. destruct (Z.eqb_spec p p') as [<-|Np], (Z.eqb_spec m0 m') as [<-|Nm]; cbn [andb]; intros; apply supplied_cons; auto.
    - intros p' i' n' o' Hi. cbn [log insts] in Hi. rewrite E4 in Hi. destruct (I p' i' n' o' Hi) as (m & X & Y & V). exists m. rewrite E7. repeat split; auto using supplied_cons; [|now right].
      unfold pid_of. cbn. rewrite <- (same_ids_nth _ _ o' Ei). exact X.
    - intros p' i' m' n' [X|X]; [discriminate|]. cbn [log ninsts]. rewrite E5. rewrite E7 in X. eapply N; eauto.
    - revert F. apply toks_mono; auto.
      + intros o' m' X. unfold pid_of. cbn. rewrite <- (same_ids_nth _ _ o' Ei). exact X.
      + exists [HPin p m0 ts]. cbn. now rewrite E7.
    - rewrite E7. split; auto. }
  pose proof (a_wf s A) as W.
  destruct (find_pin s p o) as [old|] eqn:E.
  - destruct ts as [|x ts]; intros H; inversion H; subst s'; clear H.
    + apply Fin; auto. 
    + apply Fin; auto.
      * destruct W as [A1 B1 D D' F G K H]. constructor; cbn [with_pins progs pins insts ninsts closed]; auto.
        -- intros p' o' ts' I. apply in_map_iff in I as ([[p2 o2] ts2] & I1 & I2).
           destruct (pin_is p o (p2, o2, ts2)) eqn:P; inversion I1; subst; [now exists m0|eapply D; eauto].
        -- now rewrite map_pins_keys.
        -- intros H1. destruct (H H1) as (X & Y & Z0). now rewrite Y.
      * unfold find_pin in *. cbn [with_pins pins]. rewrite find_map_pin. destruct (find (pin_is p o) (pins s)) as [y|] eqn:Y; [|discriminate].
        apply find_some in Y as [_ Y]. cbn [option_map]. now rewrite Y.
      * intros p' o' Ne. unfold find_pin. cbn [with_pins pins]. rewrite find_map_pin. destruct (find (pin_is p' o') (pins s)) as [y|] eqn:Y; auto.
        apply find_some in Y as [_ Y]. cbn [option_map]. destruct y as [[p2 o2] ts2]. apply eqb_dec_pin in Y as [-> ->].
        destruct (pin_is p o (p', o', ts2)) eqn:Q; auto. apply eqb_dec_pin in Q as [-> ->]. congruence.
  - destruct (ref o (objs s)) as [l| |] eqn:Rf; cbn [bind]; try discriminate. intros H; inversion H; subst s'; clear H.
    assert (Hc: closed s = false).
    { destruct (closed s) eqn:Hc; auto. destruct (wf_closed s W Hc) as (P & _). rewrite P in C. contradiction. }
    apply ref_ids in Rf. apply Fin; auto.
    + destruct W as [A1 B1 D D' F G K H]. constructor; cbn [with_pins with_objs progs pins insts ninsts closed] in *; auto.
      * intros m' o' X. unfold pid_of. cbn. rewrite <- (same_ids_nth _ _ o' Rf). now apply B1.
      * intros p' o' ts' [I|I]; [inversion I; subst; now exists m0|eapply D; eauto].
      * cbn [map fst]. constructor; auto. intros I. apply in_map_iff in I as ([[p2 o2] ts2] & I1 & I2). cbn in I1. inversion I1; subst.
        unfold find_pin in E. destruct (find (pin_is p o) (pins s)) eqn:E'; [discriminate|]. apply (find_none _ _ E') in I2.
        assert (X: pin_is p o (p, o, ts2) = true) by now apply eqb_dec_pin. congruence.
      * congruence.
    + unfold find_pin. cbn [with_pins with_objs pins find]. assert (X: pin_is p o (p, o, ts) = true) by now apply eqb_dec_pin. rewrite X. cbn. now destruct ts.
    + intros p' o' Ne. unfold find_pin. cbn [with_pins with_objs pins find]. destruct (pin_is p' o' (p, o, ts)) eqn:X; auto.
      apply eqb_dec_pin in X as [-> ->]. congruence.
Qed.

Lemma acct_merge s o s' c : acct s -> closed s = false -> merge s o = Ok (s', c) ->
  acct s' /\ canonical s' c /\ pid_of s' c = pid_of s o /\ hist s' = hist s /\ insts s' = insts s /\ closed s' = false /\
  (forall o' m, pid_of s o' = Some m -> pid_of s' o' = Some m).
Proof.
  intros A Hc. unfold merge. destruct (nth_error (objs s) o) as [b|] eqn:E; [|discriminate].
  assert (P: pid_of s o = Some (pid b)) by (unfold pid_of; now rewrite E).
  pose proof (a_wf s A) as W.
  destruct (find_prog s (pid b)) as [e|] eqn:F.
  - pose proof (find_prog_in _ _ _ F) as I.
    assert (X: forall l c', unref o (objs s) = Ok l -> In (pid b, c') (progs s) -> 
      acct (with_objs s l) /\ canonical (with_objs s l) c' /\ pid_of (with_objs s l) c' = pid_of s o /\ hist (with_objs s l) = hist s /\ insts (with_objs s l) = insts s /\ closed (with_objs s l) = false /\
      (forall o' m, pid_of s o' = Some m -> pid_of (with_objs s l) o' = Some m)).
    { intros l c' U Hi. apply unref_ids in U. pose proof (ids_pid s l U) as Q.
      split; [now apply acct_objs|]. split; [now exists (pid b)|]. split; [|auto].
      rewrite P. apply Q. now apply (wf_progs s W). }
    destruct (Nat.eqb_spec e o) as [->|N].
    + destruct (refs b <? 2); [discriminate|]. destruct (unref o (objs s)) as [l| |]; cbn [bind]; try discriminate.
      intros H. inversion H; subst. now apply X.
    + destruct (unref o (objs s)) as [l| |]; cbn [bind]; try discriminate.
      intros H. inversion H; subst. now apply X.
  - assert (K: ~ In (pid b) (map fst (progs s))).
    { intros I. apply in_map_iff in I as ([m o'] & Em & I). unfold find_prog in F. cbn in Em.
      destruct (find (fun x => fst x =? pid b) (progs s)) eqn:F'; [discriminate|]. apply (find_none _ _ F') in I. cbn in I. lia. }
    intros H. inversion H; subst s' c; clear H.
    assert (NC: ~ canonical s o).
    { intros [m C]. apply K. pose proof (wf_progs s W _ _ C) as Q. rewrite P in Q. inversion Q; subst m. now apply (in_map fst) in C. }
    split; [|split; [exists (pid b); now left|auto 10]].
    destruct A as [_ Pn O S I N Ft R]. constructor; auto; cbn [hist insts ninsts threads].
    + destruct W as [A1 B1 D D' F' G K' H]. constructor; cbn [progs pins insts ninsts closed] in *; auto.
      * cbn [map fst]. now constructor.
      * intros m o' [J|J]; [inversion J; subst; exact P|now apply B1].
      * intros p o' ts J. destruct (D p o' ts J) as [m J']. exists m. now right.
      * intros p i n o' J. destruct (F' p i n o' J) as [[m J'] J2]. split; auto. exists m. now right.
      * congruence.
    + intros p m. rewrite Pn. unfold find_prog. cbn [progs find fst].
      destruct (Z.eqb_spec (pid b) m) as [<-|Nm].
      * unfold find_prog in F. destruct (find (fun x => fst x =? pid b) (progs s)); [discriminate|]. cbn [option_map snd].
        symmetry. unfold find_pin. cbn [pins]. destruct (find (pin_is p o) (pins s)) as [[[p' o'] ts]|] eqn:Q; auto.
        exfalso. apply find_some in Q as [Q1 Q2]. apply eqb_dec_pin in Q2 as [-> ->]. apply NC. eapply (wf_pins s W); eauto.
      * reflexivity.
Qed.

Lemma find_filter_key {A} (q f : A -> bool) l : (forall x y, In x l -> In y l -> q x = true -> q y = true -> x = y) ->
  find q (filter f l) = match find q l with Some x => if f x then Some x else None | None => None end.
Proof.
  induction l as [|a l IH]; intros U; auto. cbn [filter find].
  assert (U': forall x y, In x l -> In y l -> q x = true -> q y = true -> x = y) by (intros; apply U; auto; now right).
  destruct (q a) eqn:Q.
  - destruct (f a) eqn:Fa; cbn [find]; [now rewrite Q|].
    rewrite IH by auto. destruct (find q l) as [x|] eqn:Fx; auto. apply find_some in Fx as [X1 X2].
    rewrite (U a x) in Fa; auto; [now rewrite Fa|now left|now right].
  - destruct (f a); cbn [find]; rewrite ?Q; auto.
Qed.
Lemma pin_key s p o x y : wf s -> In x (pins s) -> In y (pins s) -> pin_is p o x = true -> pin_is p o y = true -> x = y.
Proof.
  intros W Hx Hy Qx Qy. destruct x as [[p1 o1] t1], y as [[p2 o2] t2]. apply eqb_dec_pin in Qx as [-> ->]. apply eqb_dec_pin in Qy as [-> ->].
  apply (nodup_key_eq fst (pins s)); auto. apply W.
Qed.
Lemma inst_is_eq p i p' i' n o : inst_is p i (p', i', n, o) = true <-> p' = p /\ i' = i.
Proof. unfold inst_is. cbn. rewrite andb_true_iff, !Z.eqb_eq. tauto. Qed.
Lemma inst_key s p i x y : wf s -> In x (insts s) -> In y (insts s) -> inst_is p i x = true -> inst_is p i y = true -> x = y.
Proof.
  intros W Hx Hy Qx Qy. destruct x as [[[p1 i1] n1] o1], y as [[[p2 i2] n2] o2]. apply inst_is_eq in Qx as [-> ->]. apply inst_is_eq in Qy as [-> ->].
  apply (nodup_key_eq (fun x => fst (fst x)) (insts s)); auto. apply W.
Qed.

Lemma filter_nodup {A K} (f : A -> K) q (l : list A) : NoDup (map f l) -> NoDup (map f (filter q l)).
Proof.
  induction l as [|y l IH]; cbn [map filter]; auto. intros N. inversion N as [|? ? N1 N2]; subst.
  destruct (q y); auto. cbn [map]. constructor; auto. intros J. apply N1. apply in_map_iff in J as (z & J1 & J2).
  apply filter_In in J2 as [J2 _]. apply in_map_iff. eauto.
Qed.

Lemma acct_delete s n s' : acct s -> delete_inst s n = Ok s' -> acct s' /\ exists l, hist s' = l ++ hist s.
Proof.
  intros A. unfold delete_inst. pose proof (a_wf s A) as W.
  destruct (find (inst_no n) (insts s)) as [x|] eqn:E.
  - destruct (unref (snd x) (objs s)) as [l| |] eqn:U; cbn [bind]; try discriminate. intros H; inversion H; subst s'; clear H.
    split; [|exists [HGone n]; reflexivity]. apply unref_ids in U. pose proof (ids_pid s l U) as Q.
    destruct A as [_ Pn O S I N Ft R]. constructor; auto; cbn [log hist insts ninsts threads].
    + destruct W as [A1 B1 D D' F' G K' H]. constructor; cbn [log progs pins insts ninsts closed] in *; auto using filter_nodup.
      * intros m o J. apply Q. now apply B1.
      * intros p i k o J. apply filter_In in J as [J _]. eapply F'; eauto.
      * intros H1. destruct (H H1) as (X & Y & Z0). rewrite Z0. auto.
    + intros p i. cbn [owns]. rewrite O. unfold find_inst. cbn [log insts].
      rewrite find_filter_key by (intros; eapply inst_key; eauto).
      destruct (find (inst_is p i) (insts s)) as [[[[p' i'] k] o]|]; cbn [option_map fst snd]; auto.
      unfold inst_no. cbn [fst snd]. destruct (Nat.eqb_spec k n); reflexivity.
    + intros p m H. apply supplied_cons. now apply S.
    + intros p i k o J. apply filter_In in J as [J _]. destruct (I p i k o J) as (m & X & Y & V). exists m.
      split; [now apply Q|]. split; [now apply supplied_cons|now right].
    + intros p i m k [X|X]; [discriminate|eapply N; eauto].
    + revert Ft. apply toks_mono2; auto. exists [HGone n]. reflexivity.
    + split; auto. exact Logic.I.
  - intros H; inversion H; subst s'; clear H. split; [|exists []; reflexivity].
    destruct A as [_ Pn O S I N Ft R]. constructor; auto; cbn [hist insts ninsts threads]. revert W. apply wf_ext; reflexivity.
Qed.

Definition okacct (r : res st) : Prop := forall s, r = Ok s -> acct s.
Lemma ok_goto s t g : acct s -> tok s g -> okacct (goto s t g).
Proof. intros A T s' H. eapply acct_goto; eauto. Qed.

Lemma register_acct s t o a l c : acct s -> tok s (SReg o a l) -> okacct (register s t o a l c).
Proof.
  intros A [Po Sup] s'. unfold register.
  assert (Q: forall l0 s', goto s t (SUnref l0) = Ok s' -> acct s') by (intros l0 s0; apply ok_goto; auto; exact I).
  destruct c; try (apply Q; fail).
  all: destruct (pin a && match pri a with None => true | Some _ => false end); [apply Q|];
       destruct (closed s) eqn:Hc; [apply Q|];
       destruct (match launch a, pri a with Some i, Some p => match find_inst s p i with Some _ => true | None => false end | _, _ => false end) eqn:Dup; [apply Q|].
  all: destruct (merge s o) as [[s1 c0]| |] eqn:Mg; cbn [bind]; try discriminate.
  all: destruct (acct_merge s o s1 c0 A Hc Mg) as (A1 & C1 & P1 & H1 & I1 & Hc1 & Pm).
  all: rewrite Po in P1.
  all: assert (Y: forall s2, match pin a, pri a with true, Some p => ensureProgramRef s1 p c0 (tags a) | _, _ => Ok s1 end = Ok s2 ->
         acct s2 /\ keeps s1 s2 /\ (exists l, hist s2 = l ++ hist s1))
    by (assert (Z0: forall s2, Ok s1 = Ok s2 -> acct s2 /\ keeps s1 s2 /\ (exists l, hist s2 = l ++ hist s1))
         by (intros s2 E; inversion E; subst; split; [assumption|split; [constructor; reflexivity|exists []; reflexivity]]);
        destruct (pin a), (pri a) as [p|] eqn:Ep; try exact Z0; intros s2 E;
        destruct (acct_ensure s1 p c0 (tags a) s2 A1 C1) as (X1 & X2 & e & X3); auto;
        [intros m Hm; rewrite H1; rewrite P1 in Hm; inversion Hm; subst; now apply Sup
        |split; [assumption|split; [assumption|exists [e]; exact X3]]]).
  all: destruct (match pin a, pri a with true, Some p => ensureProgramRef s1 p c0 (tags a) | _, _ => Ok s1 end) as [s2| |] eqn:En; cbn [bind]; try discriminate.
  all: destruct (Y s2 eq_refl) as (A2 & K2 & h2 & H2); clear Y.
  all: destruct (launch a) as [i|]; [|apply ok_goto; auto; exact I].
  all: assert (P2: pid_of s2 c0 = Some (content a)) by (unfold pid_of in *; rewrite <- (same_ids_nth _ _ c0 (k_ids _ _ K2)); exact P1).
  all: assert (Em: match nth_error (objs s2) c0 with Some b => pid b | None => 0 end = content a)
        by (unfold pid_of in P2; destruct (nth_error (objs s2) c0); cbn in P2; congruence).
  all: cbn zeta; rewrite Em; clear Em.
  all: assert (C2: canonical s2 c0) by (eapply keeps_canonical; eauto).
  all: assert (SH: forall p, supplied (hist s) p (content a) -> supplied (hist s2) p (content a))
        by (intros p X; rewrite H2, H1; clear -X; induction h2; auto; cbn; now apply supplied_cons).
  all: destruct (pri a) as [p|]; cbn [bind].
  all: [> | | | | | ].
  all: match goal with
  | |- context [HLaunch] =>
      destruct (ref c0 (objs s2)) as [l1| |] eqn:R1; cbn [bind]; try discriminate;
      match goal with |- context [log ?x ?e] => set (s3 := log x e) end;
      apply ref_ids in R1; pose proof (ids_pid s2 l1 R1) as Q1;
      assert (A3: acct s3);
      [ unfold s3; destruct A2 as [W Pn O S I N Ft R]; constructor; auto; cbn [log hist insts ninsts threads];
        [ destruct W as [A9 B1 D D' F' G K' H]; constructor; cbn [log progs pins insts ninsts closed] in *; auto;
          [ intros m' o' J; apply Q1; now apply B1
          | intros p' i' n' o' [J|J]; [inversion J; subst; split; [exact C2|lia]|destruct (F' p' i' n' o' J); split; auto]
          | cbn [map fst]; constructor; auto; intros J; apply in_map_iff in J as ([[[p2 i2] n2] o2] & J1 & J2); cbn in J1; inversion J1; subst;
            rewrite (k_insts _ _ K2), I1 in J2; unfold find_inst in Dup;
            destruct (find (inst_is p i) (insts s)) eqn:E'; [discriminate|]; apply (find_none _ _ E') in J2;
            assert (X: inst_is p i (p, i, n2, o2) = true) by (now apply inst_is_eq); congruence
          | cbn [map fst snd]; constructor; auto; intros J; apply in_map_iff in J as ([[[p2 i2] n2] o2] & J1 & J2); cbn in J1;
            apply F' in J2 as [_ J2]; lia
          | intros J; rewrite (k_closed _ _ K2) in J; congruence ]
        | intros p' i'; cbn [owns]; rewrite O; unfold find_inst; cbn [log insts find];
          destruct (inst_is p' i' (p, i, ninsts s2, c0)) eqn:X;
          [ apply inst_is_eq in X as [-> ->]; rewrite !Z.eqb_refl; reflexivity
          | destruct (Z.eqb_spec p p') as [<-|], (Z.eqb_spec i i') as [<-|]; cbn [andb]; auto;
            assert (X': inst_is p i (p, i, ninsts s2, c0) = true) by (now apply inst_is_eq); congruence ]
        | intros p' m' J; apply supplied_cons; now apply S
        | intros p' i' n' o' [J|J];
          [ inversion J; subst; exists (content a); split; [now apply Q1|]; split; [apply supplied_cons; apply SH; now apply Sup|now left]
          | destruct (I p' i' n' o' J) as (m' & X & Y & V); exists m'; split; [now apply Q1|]; split; [now apply supplied_cons|now right] ]
        | intros p' i' m' n' [J|J]; [inversion J; subst; lia|apply N in J; lia]
        | revert Ft; apply toks_mono2; auto; eexists [_]; reflexivity
        | split; auto; cbn [right]; split; [|split];
          [ rewrite O; unfold find_inst; rewrite (k_insts _ _ K2), I1; fold (find_inst s p i); unfold find_inst in *;
            destruct (find (inst_is p i) (insts s)); [discriminate|reflexivity]
          | apply SH; now apply Sup
          | intros p' i' m' J; apply N in J; lia ] ]
      | destruct (ref c0 (objs s3)) as [l2| |] eqn:R2; cbn [bind]; try discriminate; apply ref_ids in R2;
        apply ok_goto; [apply acct_objs; auto; now apply ids_pid|exact Logic.I] ]
  | |- _ =>
      match goal with |- context [ref ?cc (objs ?x)] => set (s3 := x) end;
      assert (A3: acct s3);
      [ unfold s3; destruct A2 as [W Pn O S I N Ft R]; constructor; auto; cbn [log hist insts ninsts threads];
        [ destruct W as [A9 B1 D D' F' G K' H]; constructor; cbn [log progs pins insts ninsts closed] in *; auto;
          intros p' i' n' o' J; destruct (F' p' i' n' o' J); split; auto
        | intros p' i' m' n' J; apply N in J; lia ]
      | destruct (ref c0 (objs s3)) as [l2| |] eqn:R2; cbn [bind]; try discriminate; apply ref_ids in R2;
        apply ok_goto; [apply acct_objs; auto; now apply ids_pid|exact Logic.I] ]
  end.
Qed.

Lemma canon_pid_eq s o o' m : wf s -> canonical s o -> canonical s o' -> pid_of s o = Some m -> pid_of s o' = Some m -> o = o'.
Proof.
  intros W [a A] [b B] P P'. pose proof (wf_progs s W _ _ A). pose proof (wf_progs s W _ _ B).
  assert (a = m) by congruence. assert (b = m) by congruence. subst a b. exact (nodup_fst_eq _ _ _ _ (wf_keys s W) A B).
Qed.

Lemma modules_right s p : acct s -> right (hist s) (HModules p
  (map (fun x => (match nth_error (objs s) (snd (fst x)) with Some b => pid b | None => 0 end, snd x)) (filter (fun x => fst (fst x) =? p) (pins s)))).
Proof.
  intros A. pose proof (a_wf s A) as W. cbn [right].
  set (f := fun x : Z * nat * list Z => (match nth_error (objs s) (snd (fst x)) with Some b => pid b | None => 0 end, snd x)).
  assert (Pid: forall x, In x (pins s) -> pid_of s (snd (fst x)) = Some (fst (f x)) /\ canonical s (snd (fst x))).
  { intros [[q o] ts] Hx. pose proof (wf_pins s W _ _ _ Hx) as C. split; auto. destruct C as [m C]. pose proof (wf_progs s W _ _ C) as P.
    unfold f, pid_of in *. cbn [fst snd]. destruct (nth_error (objs s) o); [reflexivity|discriminate]. }
  split.
  - rewrite map_map. pose proof (wf_pinkeys s W) as N.
    assert (N': NoDup (map fst (filter (fun x => fst (fst x) =? p) (pins s)))) by now apply filter_nodup.
    assert (Sub: forall x, In x (filter (fun x => fst (fst x) =? p) (pins s)) -> In x (pins s) /\ fst (fst x) = p).
    { intros x Hx. apply filter_In in Hx as [H1 H2]. split; auto. now apply Z.eqb_eq in H2. }
    revert N' Sub. generalize (filter (fun x => fst (fst x) =? p) (pins s)). intros l. induction l as [|y l IH]; intros N' Sub; cbn [map]; [constructor|].
    cbn [map] in N'. inversion N' as [|? ? N1 N2]; subst. constructor; [|apply IH; auto; intros x Hx; apply Sub; now right].
    intros J. apply in_map_iff in J as (z & J1 & J2). apply N1.
    destruct (Sub y (or_introl eq_refl)) as [Y1 Y2]. destruct (Sub z (or_intror J2)) as [Z1 Z2].
    destruct (Pid y Y1) as [Y3 Y4], (Pid z Z1) as [Z3 Z4].
    assert (E: snd (fst z) = snd (fst y)) by (eapply canon_pid_eq; eauto; congruence).
    apply in_map_iff. exists z. split; auto. destruct y as [[? ?] ?], z as [[? ?] ?]. cbn in *. congruence.
  - intros m ts. rewrite (a_pin s A). split.
    + intros H. apply in_map_iff in H as (x & E & Hx). apply filter_In in Hx as [H1 H2]. apply Z.eqb_eq in H2.
      destruct (Pid x H1) as [P C]. destruct x as [[q o] ts']. cbn [fst snd] in *. subst q.
      assert (fst (f (p, o, ts')) = m /\ ts' = ts) as [Ef ->] by (rewrite E; unfold f in E; cbn [fst snd] in E; inversion E; auto).
      rewrite Ef in P. destruct C as [m' C]. pose proof (wf_progs s W _ _ C) as P'. assert (m' = m) by congruence. subst m'.
      rewrite (in_find_prog s m o) by auto. now apply in_find_pin.
    + destruct (find_prog s m) as [o|] eqn:F; [|discriminate]. intros H. apply find_pin_in in H. apply find_prog_in in F.
      apply in_map_iff. exists (p, o, ts). destruct (Pid _ H) as [P _]. cbn [fst snd] in P. rewrite (wf_progs s W _ _ F) in P.
      split; [unfold f in *; cbn [fst snd] in *; congruence|]. apply filter_In. split; auto. cbn. apply Z.eqb_refl.
Qed.

Lemma run_acct s t c : acct s -> okacct (run s t c).
Proof.
  intros A s'. unfold run. destruct (nth_error (threads s) t) as [g|] eqn:G; [|discriminate].
  pose proof (a_wf s A) as W.
  assert (T: tok s g). { pose proof (a_thr s A) as F. rewrite Forall_forall in F. apply F. eapply nth_error_In; eauto. }
  assert (D: forall s' g, (match g with SReg _ _ _ | SUse _ _ _ | SSnap _ _ _ _ _ => False | _ => True end) -> goto s t g = Ok s' -> acct s').
  { intros s0 g0 H. apply ok_goto; auto. destruct g0; try contradiction; exact Logic.I. }
  assert (DL: forall e s' g, right (hist s) e -> (forall p m, pinned (e :: hist s) p m = pinned (hist s) p m) ->
    (forall p i, owns (e :: hist s) p i = owns (hist s) p i) -> (forall p i m n, e <> HLaunch p i m n) -> tok (log s e) g -> goto (log s e) t g = Ok s' -> acct s').
  { intros e s0 g0 H1 H2 H3 H4 H5. apply ok_goto; auto. now apply acct_log. }
  assert (DLR: forall e o l s' g, ref o (objs s) = Ok l -> right (hist s) e -> (forall p m, pinned (e :: hist s) p m = pinned (hist s) p m) ->
    (forall p i, owns (e :: hist s) p i = owns (hist s) p i) -> (forall p i m n, e <> HLaunch p i m n) -> tok (log (with_objs s l) e) g -> goto (log (with_objs s l) e) t g = Ok s' -> acct s').
  { intros e o l s0 g0 R H1 H2 H3 H4 H5. apply ok_goto; auto. apply acct_log; auto. apply acct_objs; auto. apply ids_pid. eapply ref_ids; eauto. }
  assert (Pn: forall p m, pinned (hist s) p m = match find_prog s m with None => None | Some o => find_pin s p o end) by apply A.
  destruct g as [h a|h a|p m i|p m|p|p m|p m ts|p m|p i o|h o a|o a l|n o|n o|n l|n|n o|p i m ts o|o|[|o l]].
  - destruct (find_prog s h) as [o|] eqn:F; [|apply D; exact I].
    destruct (nth_error (objs s) o) as [b|]; [|discriminate]. destruct (negb (opened b)); [discriminate|].
    destruct c; try (apply D; exact I);
      (destruct (ref o (objs s)) as [l| |] eqn:R; cbn [bind]; try discriminate; apply ref_ids in R; pose proof (ids_pid s l R) as Q;
       apply ok_goto; [now apply acct_objs|cbn [tok]; apply Q; apply (wf_progs s W); now apply find_prog_in]).
  - assert (X: forall s', (if match h with Some h => content a =? h | None => true end
                 then let s1 := with_objs s (objs s ++ [Obj (content a) 1 true]) in
                      goto (match pri a with Some p => log s1 (HSupplied p (content a)) | None => s1 end) t (SReg (length (objs s)) a [])
                 else goto s t done) = Ok s' -> acct s').
    { intros s0. destruct (match h with Some h => content a =? h | None => true end); [|apply D; exact I].
      cbn zeta. set (s1 := with_objs s (objs s ++ [Obj (content a) 1 true])).
      assert (A1: acct s1) by (apply acct_objs; auto; apply new_pid).
      assert (P1: pid_of s1 (length (objs s)) = Some (content a)).
      { unfold pid_of, s1. cbn. rewrite nth_error_app2, Nat.sub_diag by lia. reflexivity. }
      destruct (pri a) as [p|] eqn:Ep.
      - apply ok_goto; [apply acct_log; auto; try exact I; discriminate|]. cbn [tok]. split; [exact P1|]. intros q Hq. rewrite Ep in Hq. inversion Hq; subst. left. now left.
      - apply ok_goto; auto. cbn [tok]. split; [exact P1|]. intros q Hq. congruence. }
    destruct c; auto. apply D; exact I.
  - pose proof (Pn p m) as Pm. destruct (find_prog s m) as [o|] eqn:F;
      [|apply DL; auto; try discriminate; cbn [right]; rewrite Pm; split; [reflexivity|discriminate]].
    destruct (find_pin s p o) as [ts0|] eqn:Fp; [|apply DL; auto; try discriminate; cbn [right]; rewrite Pm; split; [reflexivity|discriminate]].
    destruct (ref o (objs s)) as [l| |] eqn:R; cbn [bind]; try discriminate.
    assert (S: supplied (hist s) p m) by (apply (a_sup s A); congruence).
    eapply DLR; eauto; try discriminate.
    + cbn [right]. rewrite Pm. auto.
    + cbn [tok content pri]. split; [|intros q Hq; inversion Hq; subst; apply supplied_cons; exact S].
      apply ref_ids in R. apply (ids_pid s l R). apply (wf_progs s W). now apply find_prog_in.
  - cbn zeta. rewrite <- Pn. apply DL; auto; try discriminate. cbn [right]. split; auto. apply A.
  - cbn zeta. apply DL; auto; try discriminate. now apply modules_right.
  - pose proof (Pn p m) as Pm. destruct (find_prog s m) as [o|] eqn:F;
      [|apply DL; auto; try discriminate; cbn [right]; rewrite Pm; split; [reflexivity|discriminate]].
    destruct (find_pin s p o) as [ts0|] eqn:Fp; [|apply DL; auto; try discriminate; cbn [right]; rewrite Pm; split; [reflexivity|discriminate]].
    destruct (ref o (objs s)) as [l| |] eqn:R; cbn [bind]; try discriminate.
    eapply DLR; eauto; try discriminate.
    + cbn [right]. rewrite Pm. split; auto. intros _. apply (a_sup s A). congruence.
  - destruct (find_prog s m) as [o|] eqn:F; [|apply D; exact I].
    destruct (match find_pin s p o with Some _ => true | None => existsb (fun x => (fst (fst (fst x)) =? p) && Nat.eqb (snd x) o) (insts s) end) eqn:C; [|apply D; exact I].
    destruct (ensureProgramRef s p o ts) as [s1| |] eqn:E; cbn [bind]; try discriminate.
    destruct (acct_ensure s p o ts s1 A (find_prog_canonical _ _ _ F)) as (A1 & _ & _); auto; [|apply ok_goto; auto; exact I].
    intros m' Hm'. pose proof (find_prog_in _ _ _ F) as Fi. rewrite (wf_progs s W _ _ Fi) in Hm'. inversion Hm'; subst m'.
    pose proof (Pn p m) as Pm. rewrite F in Pm. destruct (find_pin s p o) eqn:Fp; [apply (a_sup s A); congruence|].
    apply existsb_exists in C as ([[[p' i'] n'] o'] & C1 & C2). cbn [fst snd] in C2. apply andb_prop in C2 as [C2 C3].
    apply Z.eqb_eq in C2. apply Nat.eqb_eq in C3. subst p' o'. destruct (a_inst s A _ _ _ _ C1) as (m2 & X & Y & _).
    rewrite (wf_progs s W _ _ Fi) in X. inversion X; subst. exact Y.
  - pose proof (Pn p m) as Pm. destruct (find_prog s m) as [o|] eqn:F;
      [|apply DL; auto; try discriminate; cbn [right]; rewrite Pm; reflexivity].
    destruct (find_pin s p o) as [ts0|] eqn:Fp; [|apply DL; auto; try discriminate; cbn [right]; rewrite Pm; reflexivity].
    destruct (unref o (objs s)) as [l| |] eqn:U; cbn [bind]; try discriminate.
    apply ok_goto; [|exact I]. apply unref_ids in U. pose proof (ids_pid s l U) as Q.
    pose proof (find_prog_in _ _ _ F) as Fi.
    destruct A as [_ _ O S I N Ft R]. constructor; auto; cbn [log hist].
    + destruct W as [A1 B1 E E' F' G1 K' H]. constructor; cbn [log with_pins with_objs progs pins insts ninsts closed] in *; auto using filter_nodup.
      * intros m' o' J. apply Q. now apply B1.
      * intros p' o' ts' J. apply filter_In in J as [J _]. eapply E; eauto.
      * intros H1. destruct (H H1) as (X & Y & Z0). rewrite Y. auto.
    + intros p' m'. cbn [pinned]. cbn [with_pins with_objs hist]. rewrite Pn.
      change (find_prog (log (with_pins (with_objs s l) (filter (fun x => negb (pin_is p o x)) (pins s))) (HUnpin p m true)) m') with (find_prog s m').
      assert (X: forall o', find_pin (log (with_pins (with_objs s l) (filter (fun x => negb (pin_is p o x)) (pins s))) (HUnpin p m true)) p' o'
        = if (p' =? p) && Nat.eqb o' o then None else find_pin s p' o').
      { intros o'. unfold find_pin. cbn [log with_pins with_objs pins]. rewrite find_filter_key by (intros; eapply pin_key; eauto).
        destruct (find (pin_is p' o') (pins s)) as [[[q k] us]|] eqn:Fk; cbn [option_map].
        - apply find_some in Fk as [_ Fk]. apply eqb_dec_pin in Fk as [-> ->]. unfold pin_is. cbn [fst snd].
          destruct ((p' =? p) && Nat.eqb o' o); reflexivity.
        - now destruct ((p' =? p) && Nat.eqb o' o). }
      destruct (find_prog s m') as [o'|] eqn:F2.
      * rewrite X. pose proof (find_prog_in _ _ _ F2) as Fi2.
        destruct (Z.eqb_spec p p') as [<-|Np], (Z.eqb_spec m m') as [<-|Nm]; cbn [andb].
        -- rewrite Z.eqb_refl. assert (o' = o) by congruence. subst. now rewrite Nat.eqb_refl.
        -- rewrite Z.eqb_refl. destruct (Nat.eqb_spec o' o) as [->|]; auto. exfalso. apply Nm. eapply prog_unique; eauto.
        -- destruct (Z.eqb_spec p' p); [congruence|]. reflexivity.
        -- destruct (Z.eqb_spec p' p); [congruence|]. reflexivity.
      * now destruct ((p =? p') && (m =? m')).
    + intros p' m'. cbn [pinned with_pins with_objs hist]. destruct ((p =? p') && (m =? m')); [congruence|]. intros H. apply supplied_cons. now apply S.
    + intros p' i' n' o' J. destruct (I p' i' n' o' J) as (m' & X & Y & V). exists m'. split; [now apply Q|]. split; [now apply supplied_cons|now right].
    + intros p' i' m' n' [X|X]; [discriminate|eapply N; eauto].
    + revert Ft. apply toks_mono; auto. exists [HUnpin p m true]. reflexivity.
    + split; auto. cbn [right with_pins with_objs hist]. rewrite Pm. reflexivity.
  - pose proof (a_own s A p i) as Ow. destruct (find_inst s p i) as [[n b]|] eqn:F.
    2:{ apply DL; auto; try discriminate. cbn [right]. rewrite Ow. split; [reflexivity|discriminate]. }
    cbn zeta. apply find_inst_in in F. destruct (a_inst s A _ _ _ _ F) as (m & X & Y & V).
    assert (A1: acct (log s (HInst p i (Some n)))).
    { apply acct_log; auto; try discriminate. cbn [right]. rewrite Ow. split; [reflexivity|]. intros k Hk. inversion Hk; subst. eauto. }
    destruct o as [| | | |m' ts']; try (apply ok_goto; [exact A1|exact Logic.I]).
    all: destruct (ref b (objs (log s (HInst p i (Some n))))) as [l| |] eqn:R; cbn [bind]; try discriminate.
    all: apply ref_ids in R; apply ok_goto; [apply acct_objs; auto; now apply ids_pid|try exact Logic.I].
    cbn [tok]. exists n. now left.
  - cbn [tok] in T.
    destruct c; try (apply D; exact I);
      (destruct (Z.eqb_spec (content a) h) as [E|]; [|apply D; exact I];
       destruct (pri a) as [p|] eqn:Ep; 
       [apply ok_goto; [apply acct_log; auto; try exact I; discriminate|cbn [tok]; split; [now rewrite E|intros q Hq; rewrite Ep in Hq; inversion Hq; subst; left; now left]]
       |apply ok_goto; [exact A|cbn [tok]; split; [now rewrite E|intros q Hq; congruence]]]).
  - now apply register_acct.
  - destruct c; apply D; exact I.
  - destruct c; apply D; exact I.
  - destruct (delete_inst s n) as [s1| |] eqn:E; cbn [bind]; try discriminate. apply acct_delete in E as [A1 _]; auto. apply ok_goto; auto; exact Logic.I.
  - destruct c; apply D; exact I.
  - destruct c; apply D; exact I.
  - cbn [tok] in T. assert (X: forall s', goto (log (with_objs s (objs s ++ [Obj m 1 true])) (HSnap p i m)) t (SReg (length (objs s)) (Args (Some p) m true ts None) [o]) = Ok s' -> acct s').
    { intros s0. apply ok_goto.
      - apply acct_log; auto; try discriminate. apply acct_objs; auto. apply new_pid.
      - cbn [tok content pri]. split; [unfold pid_of; cbn; rewrite nth_error_app2, Nat.sub_diag by lia; reflexivity|].
        intros q Hq. inversion Hq; subst. right. right. exists i. now left. }
    destruct c; auto. apply D; exact I.
  - apply D; exact I.
  - discriminate.
  - destruct (unref o (objs s)) as [l1| |] eqn:U; cbn [bind]; try discriminate. apply unref_ids in U.
    apply ok_goto; [apply acct_objs; auto; now apply ids_pid|exact I].
Qed.

Lemma step_acct s e s' : acct s -> step s e = Ok s' -> acct s'.
Proof.
  intros A. destruct e as [g|t c|]; cbn [step].
  - destruct (request g) eqn:Q; [|discriminate]. intros H; inversion H; subst s'; clear H.
    destruct A as [W P O S I N F R]. constructor; auto.
    + revert W. apply wf_ext; reflexivity.
    + cbn [threads]. apply Forall_app. split; auto. constructor; auto. destruct g; try discriminate; exact Logic.I.
  - now apply run_acct.
  - unfold shutdown. destruct (unref_all (map snd (progs s)) (objs s)) as [l1| |] eqn:R1; cbn [bind]; try discriminate.
    destruct (unref_all (map (fun x => snd (fst x)) (pins s)) l1) as [l2| |] eqn:R2; cbn [bind]; try discriminate.
    destruct (unref_all (map snd (insts s)) l2) as [l3| |] eqn:R3; cbn [bind]; try discriminate.
    intros H; inversion H; subst s'; clear H. apply unref_all_ids in R1, R2, R3.
    assert (E: same_ids (objs s) l3) by (unfold same_ids in *; congruence).
    destruct A as [W P O S I N F R]. constructor; cbn [log hist insts ninsts progs pins].
    + constructor; cbn; auto using NoDup_nil; intros; contradiction.
    + intros p m. reflexivity.
    + intros p i. reflexivity.
    + intros p m H. now contradiction H.
    + intros p i n o H. contradiction.
    + intros p i m n [H|H]; [discriminate|eapply N; eauto].
    + revert F. apply toks_mono; auto. 
      * intros o m H. now apply (ids_pid s l3 E).
      * exists [HClosed]. reflexivity.
    + split; auto. exact Logic.I.
Qed.

Lemma steps_acct l : forall s s', acct s -> steps s l = Ok s' -> acct s'.
Proof.
  induction l as [|e l IH]; intros s s' A; cbn [steps]; [intros H; inversion H; subst; exact A|].
  destruct (step s e) as [s1| |] eqn:E; cbn [bind]; try discriminate. apply IH. eapply step_acct; eauto.
Qed.

(* ---- the initial state ---- *)

Record loaded (s : st) (ids : list Z) : Prop := {
  l_acct : acct s; l_inv : inv s; l_progs : forall m o, In (m, o) (progs s) -> ~ In m ids; l_thr : threads s = [];
  l_ins : insts s = []; l_closed : closed s = false; l_n : ninsts s = 0%nat; l_anon : anon s = [] }.

Lemma load_ok owner ids : forall s, NoDup ids -> loaded s ids -> loaded (load s owner ids) [].
Proof.
  induction ids as [|m ids IH]; intros s N L; cbn [load].
  - destruct L. constructor; auto.
  - inversion N as [|? ? N1 N2]; subst. apply IH; auto. destruct L as [A I Pr T In0 C Nn An].
    pose proof (a_wf s A) as W.
    assert (Bk: balanced (objs s) (maps s)) by (pose proof (i_bal s I) as B; rewrite holders_maps, T in B; cbn in B; now rewrite app_nil_r in B).
    set (o := length (objs s)).
    assert (No: forall p, find_pin s p o = None).
    { intros p. destruct (find_pin s p o) as [ts|] eqn:F; auto. exfalso. apply find_pin_in in F.
      assert (X: In o (maps s)) by (unfold maps; apply in_or_app; right; apply in_or_app; left; apply in_map_iff; exists (p, o, ts); auto).
      apply Bk in X. unfold o in X. lia. }
    assert (Np: find_prog s m = None).
    { destruct (find_prog s m) as [k|] eqn:F; auto. exfalso. apply find_prog_in, Pr in F. apply F. now left. }
    assert (Pm: forall p, pinned (hist s) p m = None) by (intros p; rewrite (a_pin s A), Np; reflexivity).
    assert (Kn: ~ In m (map fst (progs s))). { intros J. apply in_map_iff in J as ([m' k] & E & J). cbn in E. subst m'. apply Pr in J. apply J. now left. }
    assert (Npid: forall r, pid_of (with_objs s (objs s ++ [Obj m r true])) o = Some m).
    { intros r. unfold pid_of, o. cbn. rewrite nth_error_app2, Nat.sub_diag by lia. reflexivity. }
    assert (Wp: forall r pn h, (pn = pins s \/ exists p, pn = (p, o, []) :: pins s) ->
       wf (St (objs s ++ [Obj m r true]) false ((m, o) :: progs s) pn [] [] 0 [] h)).
    { intros r pn h Hp. destruct W as [W1 W2 W3 W4 W5 W6 W7 W8]. constructor; cbn [progs pins insts ninsts closed map]; try constructor; auto; try discriminate.
      - intros m' k [J|J]; [inversion J; subst; apply (Npid r)|apply new_pid; now apply W2].
      - intros p' k ts J. destruct Hp as [->|[p ->]].
        + destruct (W3 p' k ts J) as [m' X]. exists m'. now right.
        + destruct J as [J|J]; [inversion J; subst; exists m; now left|]. destruct (W3 p' k ts J) as [m' X]. exists m'. now right.
      - destruct Hp as [->|[p ->]]; auto. cbn [map fst]. constructor; auto. intros J. apply in_map_iff in J as ([[p' k] ts] & E & J). cbn in E. inversion E; subst.
        specialize (No p). apply (in_find_pin s) in J; auto; [|constructor; auto]. congruence.
      - contradiction.
      - contradiction. }
    assert (Bn: forall pn h r, (pn = pins s /\ r = 1 \/ exists p, pn = (p, o, []) :: pins s /\ r = 2) ->
       balanced (objs s ++ [Obj m r true]) (holders (St (objs s ++ [Obj m r true]) false ((m, o) :: progs s) pn [] [] 0 [] h))).
    { intros pn h r Hp. destruct Bk as [B1 B2]. unfold maps in B1, B2. rewrite In0 in B1, B2. cbn [map] in B1, B2. rewrite app_nil_r in B1, B2.
      unfold holders. cbn [progs pins insts threads map flat_map]. rewrite !app_nil_r.
      assert (Zo: cnt (map snd (progs s) ++ map (fun x => snd (fst x)) (pins s)) o = 0%nat).
      { destruct (cnt (map snd (progs s) ++ map (fun x => snd (fst x)) (pins s)) o) eqn:E; auto. exfalso.
        assert (X: In o (map snd (progs s) ++ map (fun x => snd (fst x)) (pins s))) by (apply cnt_in; lia). apply B2 in X. unfold o in X. lia. }
      split.
      - intros k b H. destruct (Nat.lt_ge_cases k (length (objs s))).
        + rewrite nth_error_app1 in H by lia. destruct (B1 k b H) as [X Y]. split; auto. rewrite X. f_equal.
          destruct Hp as [[-> _]|[p [-> _]]]; cbn [map fst snd app]; repeat (rewrite ?cnt_cons, ?cnt_app); destruct (Nat.eq_dec o k); unfold o in *; try lia.
        + assert (k = o). { assert (nth_error (objs s ++ [Obj m r true]) k <> None) as Q by congruence. apply nth_error_Some in Q. rewrite app_length in Q. cbn in Q. unfold o. lia. }
          subst k. unfold o in H. rewrite nth_error_app2, Nat.sub_diag in H by lia. cbn in H. inversion H; subst b. cbn [refs opened].
          rewrite cnt_app in Zo.
          destruct Hp as [[-> ->]|[p [-> ->]]]; cbn [map fst snd app]; repeat (rewrite ?cnt_cons, ?cnt_app); destruct (Nat.eq_dec o o); try congruence; lia.
      - intros k H. rewrite app_length. cbn [length].
        assert (X: k = o \/ In k (map snd (progs s) ++ map (fun x => snd (fst x)) (pins s))).
        { destruct Hp as [[-> _]|[p [-> _]]]; cbn [map fst snd app] in H; destruct H as [H|H]; auto.
          apply in_app_or in H as [H|[H|H]]; auto; right; apply in_or_app; auto. }
        destruct X as [->|X]; [unfold o; lia|]. apply B2 in X. lia. }
    assert (Sub: forall m0 o0, In (m0, o0) ((m, o) :: progs s) -> ~ In m0 ids).
    { intros m0 o0 [J|J]; [inversion J; subst; exact N1|]. apply Pr in J. intros Q. apply J. now right. }
    destruct A as [_ P O S Ii Nw Ft R]. fold o.
    assert (Fpr: forall pn h r m', find_prog (St (objs s ++ [Obj m r true]) false ((m, o) :: progs s) pn [] [] 0 [] h) m' = if m =? m' then Some o else find_prog s m').
    { intros pn h r m'. unfold find_prog. cbn [progs find fst]. destruct (m =? m'); reflexivity. }
    destruct owner as [p|].
    + constructor; auto.
      * constructor; cbn [hist threads]; auto.
        -- apply Wp. eauto.
        -- intros p' m'. cbn [pinned]. rewrite Fpr, P. unfold find_pin. cbn [pins find].
           destruct (Z.eqb_spec m m') as [<-|Nm].
           ++ rewrite Np, andb_true_r. destruct (Z.eqb_spec p p') as [<-|Npp].
              ** assert (X: pin_is p o (p, o, []) = true) by now apply eqb_dec_pin. rewrite X. reflexivity.
              ** destruct (pin_is p' o (p, o, [])) eqn:X; [apply eqb_dec_pin in X as [? _]; congruence|].
                 specialize (No p'). unfold find_pin in No. now rewrite No.
           ++ rewrite andb_false_r. destruct (find_prog s m') as [o'|] eqn:F; auto.
              destruct (pin_is p' o' (p, o, [])) eqn:X; auto. apply eqb_dec_pin in X as [Xp Xo]. subst o'.
              exfalso. apply find_prog_in in F. assert (Y: In o (maps s)) by (apply canonical_maps; now exists m'). apply Bk in Y. unfold o in Y. lia.
        -- intros p' i'. cbn [owns]. rewrite O. unfold find_inst. rewrite In0. reflexivity.
        -- intros p' m'. cbn [pinned]. destruct (Z.eqb_spec p p') as [<-|Npp], (Z.eqb_spec m m') as [<-|Nm]; cbn [andb]; intros H.
           ++ right. left. right. now left.
           ++ apply supplied_cons, supplied_cons. now apply S.
           ++ apply supplied_cons, supplied_cons. now apply S.
           ++ apply supplied_cons, supplied_cons. now apply S.
        -- intros p' i' n k J. contradiction.
        -- intros p' i' m' n [J|[J|J]]; try discriminate. apply Nw in J. cbn [ninsts]. lia.
        -- cbn [all_right right]. split; [|split; auto; exact Logic.I]. right. left. now left.
      * constructor; cbn [objs threads]; auto; [apply (Bn _ _ 2); eauto|apply Wp; eauto].
    + constructor; auto.
      * constructor; cbn [hist threads]; auto.
        -- intros p' m'. rewrite Fpr, P. destruct (Z.eqb_spec m m') as [<-|Nm]; auto. rewrite Np. symmetry. apply No.
        -- intros p' i'. rewrite O. unfold find_inst. rewrite In0. reflexivity.
        -- intros p' i' n k J. contradiction.
        -- intros p' i' m' n J. apply Nw in J. cbn [ninsts]. lia.
      * constructor; cbn [objs threads]; auto.
Qed.
Lemma start_ok owner ids : NoDup ids -> loaded (start owner ids) [].
Proof.
  intros N. apply load_ok; auto. constructor; cbn; auto.
  - constructor; cbn; intros; try contradiction; auto; try (constructor; cbn; auto using NoDup_nil; intros; try contradiction; discriminate).
  - constructor; cbn; intros; try contradiction; auto.
    + split; cbn; [intros o b H; destruct o; discriminate|intros; contradiction].
    + constructor; cbn; auto using NoDup_nil; intros; try contradiction; discriminate.
Qed.

Lemma reach_inv owner ids s : NoDup ids -> reach (start owner ids) s -> inv s.
Proof.
  intros N R. induction R as [|s e s' R IH NS E]; [apply (l_inv _ _ (start_ok owner ids N))|].
  pose proof (step_inv s e IH NS) as X. rewrite E in X. exact X.
Qed.
