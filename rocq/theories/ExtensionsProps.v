(* ExtensionsProps.v: C144. *)
From Verif Require Import Extensions RegistryProofs RegistryProofs2 RegistryProps.
From Coq Require Import Lia.

(* ---- Settings ---- *)
(* The extensions of that name which have settings *)
Definition configured (l : list extension) (n : bytes) : list nat :=
  flat_map (fun e => if list_eq_dec Z.eq_dec (e_name e) n then match e_config e with Some c => [c] | None => [] end else []) l.

Lemma beq_iff a b : beq a b = true <-> a = b.
Proof. unfold beq. destruct (list_eq_dec Z.eq_dec a b); split; congruence. Qed.

Lemma mget_delete {V} (m : list (bytes * V)) k n : mget (mdelete m k) n = if beq k n then None else mget m n.
Proof.
  induction m as [|[k' v] m IH]; [cbn; destruct (beq k n); reflexivity|]. cbn [mdelete filter fst mget]. fold (mdelete m k).
  destruct (beq k k') eqn:E; cbn [negb mget].
  - rewrite IH. apply beq_iff in E as ->. destruct (beq k' n) eqn:F; [reflexivity|]. apply Bool.not_true_iff_false in F. rewrite beq_iff in F.
    replace (beq n k') with false; [reflexivity|]. symmetry. apply Bool.not_true_iff_false. rewrite beq_iff. congruence.
  - destruct (beq n k') eqn:F.
    + apply beq_iff in F as ->. now rewrite E.
    + rewrite IH. reflexivity.
Qed.
Lemma mget_deletes {V} (l : list bytes) : forall (m : list (bytes * V)) n, mget (fold_left mdelete l m) n = if existsb (fun k => beq k n) l then None else mget m n.
Proof.
  induction l as [|k l IH]; intros m n; [reflexivity|]. cbn [fold_left existsb]. rewrite IH, mget_delete. destruct (beq k n), (existsb _ l); reflexivity.
Qed.

Lemma config_inv l : let s := fold_left add_config l ([], []) in
  forall n, mget (fst s) n = hd_error (configured l n) /\ (existsb (fun k => beq k n) (snd s) = true <-> (2 <= length (configured l n))%nat).
Proof.
  induction l as [|e l IH] using rev_ind; [cbn; split; [reflexivity|split; [discriminate|lia]]|].
  intros s n. subst s. rewrite fold_left_app. cbn [fold_left]. set (s := fold_left add_config l ([], [])) in *. cbn zeta in IH.
  unfold configured. rewrite flat_map_app. fold (configured l n). cbn [flat_map]. rewrite app_nil_r. destruct (IH n) as (G & D).
  unfold add_config. destruct (e_config e) as [c|] eqn:C.
  2:{ replace (if list_eq_dec _ _ _ then @nil nat else []) with (@nil nat) by (destruct (list_eq_dec _ _ _); reflexivity). rewrite app_nil_r. auto. }
  destruct (IH (e_name e)) as (Ge & De). destruct (list_eq_dec Z.eq_dec (e_name e) n) as [En | Nn].
  - subst n. rewrite Ge. destruct (configured l (e_name e)) as [|c0 cs] eqn:CF; cbn [hd_error fst snd app length].
    + split; [unfold mset; cbn [mget]; replace (beq (e_name e) (e_name e)) with true by (symmetry; now apply beq_iff); reflexivity|].
      rewrite De. cbn. split; lia.
    + split; [assumption|]. rewrite existsb_app. cbn [existsb]. replace (beq (e_name e) (e_name e)) with true by (symmetry; now apply beq_iff).
      rewrite orb_true_r. rewrite app_length. cbn. split; [lia|reflexivity].
  - rewrite app_nil_r. assert (B : beq (e_name e) n = false) by (apply Bool.not_true_iff_false; rewrite beq_iff; assumption).
    assert (B' : beq n (e_name e) = false) by (apply Bool.not_true_iff_false; rewrite beq_iff; congruence).
    destruct (mget (fst s) (e_name e)); cbn [fst snd].
    + split; [assumption|]. rewrite existsb_app. cbn [existsb]. rewrite B, !orb_false_r. assumption.
    + split; [unfold mset; cbn [mget]; rewrite B'; assumption|assumption].
Qed.

(* A name has settings exactly if one extension of that name, and only one, has them *)
Theorem config_exact l n c : mget (Config l) n = Some c <-> configured l n = [c].
Proof.
  unfold Config. pose proof (config_inv l n) as H. cbn zeta in H. destruct (fold_left add_config l ([], [])) as (m, d). cbn [fst snd] in H. destruct H as (G & D).
  rewrite mget_deletes. destruct (existsb (fun k => beq k n) d).
  - assert (L : (2 <= length (configured l n))%nat) by now apply D. split; [discriminate|]. intro E. rewrite E in L. simpl in L. lia.
  - rewrite G. assert (L : ~ (2 <= length (configured l n))%nat) by (intro X; apply D in X; discriminate).
    destruct (configured l n) as [|c0 [|c1 r]]; cbn in *; try lia; split; intro E; try discriminate; congruence.
Qed.
(* The settings of the gRPC and the origin service are their own, whatever extensions there are; extensions of these names have none *)
Theorem settings_exact grpc origin l n c : mget (Settings grpc origin l) n = Some c <->
  (n = origin_name /\ c = origin) \/ (n = grpc_name /\ c = grpc) \/ (n <> origin_name /\ n <> grpc_name /\ configured l n = [c]).
Proof.
  unfold Settings, mset. cbn [mget]. destruct (beq n origin_name) eqn:B1; [|destruct (beq n grpc_name) eqn:B2].
  - apply beq_iff in B1 as ->. split; [intro E; injection E as ->; auto|]. intros [(_ & ->) | [(X & _) | (X & _)]]; [reflexivity|discriminate|congruence].
  - apply beq_iff in B2 as ->. split; [intro E; injection E as ->; auto|]. intros [(X & _) | [(_ & ->) | (_ & X & _)]]; [discriminate|reflexivity|congruence].
  - apply Bool.not_true_iff_false in B1, B2. rewrite beq_iff in B1, B2. rewrite config_exact. split; [auto|]. intros [(X & _) | [(X & _) | (_ & _ & X)]]; congruence.
Qed.

(* ---- Registrations ---- *)
Section Valid.
Variables vn vr : bytes -> bool.

(* The services that extensions and gRPC servers offer, in order *)
Definition offered (l : list extension) (servers : list (list factory)) : list factory := flat_map e_services l ++ concat servers.
Definition valid (f : factory) : Prop := valid_label vn (fname f) /\ valid_label vr (frev f).

Lemma register_own h0 r m f : nth_error h0 r = Some (Reg m None) -> 
  forall x, register vn vr h0 r f false = x ->
  (valid f -> mget m (fname f) = None -> x = Ok (upd h0 r (Reg (mset m (fname f) f) None))) /\
  (~ valid f \/ mget m (fname f) <> None -> x = Err).
Proof.
  intros N x <-. unfold register, valid. rewrite N. cbn [factories parent].
  destruct (checkString vn (fname f)) eqn:A; [apply checkString_spec in A|]; cbn [negb].
  2:{ split; [|reflexivity]. intros (X & _) _. apply checkString_spec in X. congruence. }
  destruct (checkString vr (frev f)) eqn:B; [apply checkString_spec in B|]; cbn [negb].
  2:{ split; [|reflexivity]. intros (_ & X) _. apply checkString_spec in X. congruence. }
  destruct (mget m (fname f)); cbn; split; try reflexivity; try discriminate.
  intros [X | X]; [exfalso; apply X; auto|congruence].
Qed.

Lemma register_all_ok l : forall m, 
  (NoDup (map fname l) -> Forall valid l -> (forall f, In f l -> mget m (fname f) = None) ->
     register_all vn vr [Reg m None] l = Ok [Reg (rev (map (fun f => (fname f, f)) l) ++ m) None]) /\
  (register_all vn vr [Reg m None] l <> Err -> NoDup (map fname l) /\ Forall valid l /\ (forall f, In f l -> mget m (fname f) = None)).
Proof.
  induction l as [|f l IH]; intro m.
  - split; [reflexivity|]. intros _. split; [constructor|]. split; [constructor|easy].
  - cbn [register_all]. destruct (register_own [Reg m None] 0 m f eq_refl _ eq_refl) as (OK & BAD). destruct (IH (mset m (fname f) f)) as (IH1 & IH2). split.
    + intros N V F. inversion_clear N as [|? ? N1 N2]. inversion_clear V as [|? ? V1 V2]. rewrite OK; [|assumption|apply F; now left]. cbn [upd].
      rewrite IH1; [cbn [map rev]; rewrite <- app_assoc; reflexivity|assumption|assumption|].
      intros g Hg. unfold mset. cbn [mget]. replace (beq (fname g) (fname f)) with false; [apply F; now right|].
      symmetry. apply Bool.not_true_iff_false. rewrite beq_iff. intro E. apply N1. rewrite <- E. now apply in_map.
    + intro H. assert (D : (valid f /\ mget m (fname f) = None) \/ (~ valid f \/ mget m (fname f) <> None)).
      { unfold valid. rewrite <- !checkString_spec. destruct (checkString vn (fname f)); [|right; left; intros (X & _); discriminate].
        destruct (checkString vr (frev f)); [|right; left; intros (_ & X); discriminate]. destruct (mget m (fname f)); [right; right; discriminate|left; auto]. }
      destruct D as [(V & M) | D]; [|rewrite (BAD D) in H; congruence]. rewrite (OK V M) in H. cbn [upd] in H. destruct (IH2 H) as (N & F & A).
      assert (X : forall g, In g l -> beq (fname g) (fname f) = false /\ mget m (fname g) = None).
      { intros g Hg. specialize (A g Hg). unfold mset in A. cbn [mget] in A. destruct (beq (fname g) (fname f)); [discriminate|auto]. }
      split; [|split; [now constructor|]].
      * cbn [map]. constructor; [|assumption]. intro I. apply in_map_iff in I. destruct I as (g & E & Hg). apply X in Hg. destruct Hg as (Y & _).
        apply Bool.not_true_iff_false in Y. apply Y. now apply beq_iff.
      * intros g [<- | Hg]; [assumption|]. now apply X.
Qed.
Lemma register_all_no_panic l : forall m, register_all vn vr [Reg m None] l <> Panic.
Proof.
  induction l as [|f l IH]; intros m; cbn [register_all]; [discriminate|]. unfold register. cbn [nth_error]. 
  destruct (negb (checkString vn _)); [discriminate|]. destruct (negb (checkString vr _)); [discriminate|]. destruct (_ && _); [discriminate|]. cbn [upd]. apply IH.
Qed.
Lemma register_all_app a : forall h b, register_all vn vr h (a ++ b) = match register_all vn vr h a with Ok h' => register_all vn vr h' b | x => x end.
Proof. induction a as [|f a IH]; intros h b; cbn [app register_all]; [reflexivity|]. destruct (register vn vr h 0 f false); [apply IH|reflexivity|reflexivity]. Qed.

(* The program starts with exactly the services offered if all the extensions succeed and the services are valid and of different names; or else not at all *)
Definition startable (l : list extension) (servers : list (list factory)) : Prop :=
  Forall (fun e => e_ok e = true) l /\ NoDup (map fname (offered l servers)) /\ Forall valid (offered l servers).
Definition global (l : list factory) : heap := [Reg (rev (map (fun f => (fname f, f)) l)) None].

Lemma init_extensions_spec l : forall m, init_extensions vn vr [Reg m None] l =
  if forallb e_ok l then register_all vn vr [Reg m None] (flat_map e_services l) else Err.
Proof.
  induction l as [|e l IH]; intro m; [reflexivity|]. cbn [init_extensions forallb flat_map]. rewrite register_all_app.
  destruct (register_all_ok (e_services e) m) as (A & B). destruct (register_all vn vr [Reg m None] (e_services e)) as [h| |] eqn:E.
  - assert (Z : Ok h <> Err) by discriminate. destruct (B Z) as (B1 & B2 & B3). specialize (A B1 B2 B3). injection A as ->.
    destruct (e_ok e); [apply IH|reflexivity].
  - destruct (e_ok e && forallb e_ok l); reflexivity.
  - exfalso. exact (register_all_no_panic _ _ E).
Qed.
Theorem started_exactly l servers : 
  (startable l servers -> init_services vn vr l servers = Ok (global (offered l servers))) /\
  (~ startable l servers -> init_services vn vr l servers = Err).
Proof.
  unfold init_services, startable, offered. rewrite init_extensions_spec. destruct (forallb e_ok l) eqn:E.
  - assert (F : Forall (fun e => e_ok e = true) l) by (apply Forall_forall; rewrite forallb_forall in E; assumption).
    pose proof (register_all_app (flat_map e_services l) [Reg [] None] (concat servers)) as A.
    destruct (register_all_ok (flat_map e_services l ++ concat servers) []) as (OK & BAD).
    pose proof (register_all_no_panic (flat_map e_services l ++ concat servers) []) as NP.
    assert (A' : match register_all vn vr [Reg [] None] (flat_map e_services l) with Ok h => register_all vn vr h (concat servers) | x => x end
                 = register_all vn vr [Reg [] None] (flat_map e_services l ++ concat servers)) by (rewrite A; reflexivity).
    rewrite A'. split.
    + intros (_ & N & V). rewrite (OK N V); [unfold global; now rewrite app_nil_r|reflexivity].
    + intro H. destruct (register_all vn vr [Reg [] None] (flat_map e_services l ++ concat servers)) eqn:R; [|reflexivity|congruence].
      exfalso. apply H. split; [assumption|]. assert (Z : Ok a <> Err) by discriminate. destruct (BAD Z) as (X & Y & _). auto.
  - split; [|reflexivity]. intros (F & _). exfalso. rewrite Forall_forall in F. assert (T : forallb e_ok l = true) by (apply forallb_forall; assumption). congruence.
Qed.
End Valid.

(* ---- Instances ---- *)
Section Instances.
Variables vn vr : bytes -> bool.
Variable identity : nat.
(* Letters and digits are valid (services.go's names and revisions) *)
Hypothesis letters : vn origin_name = true /\ vn catalog_name = true /\ vn identity_name = true /\ vr revision0 = true.

Lemma instance_ok h o c : wf h -> (0 < length h)%nat -> exists h', instance_services vn vr identity h o c = Ok (h', length h) /\ wf h' /\ length h' = S (length h) /\
  lookup h' (length h) origin_name = Some (origin_factory o) /\
  lookup h' (length h) catalog_name = Some (catalog_factory c) /\
  lookup h' (length h) identity_name = Some (identity_factory identity) /\
  (forall n, n <> origin_name -> n <> catalog_name -> n <> identity_name -> lookup h' (length h) n = lookup h 0 n) /\
  (forall i n, (i < length h)%nat -> lookup h' i n = lookup h i n).
Proof.
  intros W L. unfold instance_services. pose proof (lookup_clone h 0 W L) as LC. pose proof (wf_clone h 0 W L) as WC. unfold clone in *. cbn [fst snd] in *.
  destruct letters as (V1 & V2 & V3 & V4).
  assert (N0 : forall g, nth_error (h ++ [g]) (length h) = Some g) by (intro g; rewrite nth_error_app2, Nat.sub_diag by lia; reflexivity).
  assert (U : forall g g', upd (h ++ [g]) (length h) g' = h ++ [g']).
  { clear. intros g g'. induction h as [|x h IH]; [reflexivity|]. cbn. now rewrite IH. }
  assert (R : forall m f, vn (fname f) = true -> 1 <= len (fname f) <= 127 -> frev f = revision0 ->
    register vn vr (h ++ [Reg m (Some 0%nat)]) (length h) f true = Ok (h ++ [Reg (mset m (fname f) f) (Some 0%nat)])).
  { intros m f A B C. unfold register. replace (checkString vn (fname f)) with true by (symmetry; apply checkString_spec; now split).
    replace (checkString vr (frev f)) with true by (symmetry; apply checkString_spec; rewrite C; split; [cbv; split; discriminate|assumption]).
    cbn [negb]. rewrite N0. cbn [negb andb factories parent]. now rewrite U. }
  rewrite (R [] (origin_factory o)); [|assumption|cbv; split; discriminate|reflexivity]. cbn [must bind].
  rewrite (R _ (catalog_factory c)); [|assumption|cbv; split; discriminate|reflexivity]. cbn [must bind].
  rewrite (R _ (identity_factory identity)); [|assumption|cbv; split; discriminate|reflexivity]. cbn [must bind].
  eexists. split; [reflexivity|]. set (g := Reg _ _). set (h' := h ++ [g]).
  assert (W' : wf h').
  { intros i x q H P. unfold h' in H. destruct (Nat.lt_ge_cases i (length h)) as [I | I].
    - rewrite nth_error_app1 in H by assumption. exact (W _ _ _ H P).
    - rewrite nth_error_app2 in H by assumption. destruct (i - length h)%nat eqn:D; [|cbn in H; destruct n; discriminate].
      cbn in H. injection H as <-. cbn in P. injection P as <-. lia. }
  assert (OLD : forall i n, (i < length h)%nat -> lookup h' i n = lookup h i n).
  { intros i n. revert n. induction i as [i IH] using lt_wf_ind. intros n I. destruct (nth_error h i) as [x|] eqn:X; [|apply nth_error_None in X; lia].
    rewrite (lookup_unfold h i x n W X). rewrite (lookup_unfold h' i x n W'); [|unfold h'; rewrite nth_error_app1; assumption].
    destruct (mget (factories x) n); [reflexivity|]. destruct (parent x) as [q|] eqn:Q; [|reflexivity]. pose proof (W _ _ _ X Q). apply IH; lia. }
  split; [assumption|]. split; [unfold h'; rewrite app_length; cbn; lia|].
  assert (NEW : forall n, lookup h' (length h) n = match mget (factories g) n with Some f => Some f | None => lookup h' 0 n end).
  { intro n. rewrite (lookup_unfold h' (length h) g n W' (N0 g)). reflexivity. }
  repeat split; rewrite ?NEW; try reflexivity; [|assumption].
  intros n A B C. rewrite NEW. subst g. unfold mset. cbn [factories mget fname origin_factory catalog_factory identity_factory].
  assert (E : forall m, n <> m -> beq n m = false) by (intros m X; apply Bool.not_true_iff_false; now rewrite beq_iff).
  rewrite !E by assumption. now apply OLD.
Qed.

(* Every instance has the built-in services, with a connector and a catalog of its own, whatever services extensions and gRPC servers have registered and
   whatever instances have been created before; the services of other names are those which were offered; and creating instances doesn't change what others have *)
Theorem instances_services l servers before o c : startable vn vr l servers -> exists h h',
  create_instances vn vr identity (global (offered l servers)) before = Ok h /\ length h = S (length before) /\
  instance_services vn vr identity h o c = Ok (h', length h) /\
  lookup h' (length h) origin_name = Some (origin_factory o) /\
  lookup h' (length h) catalog_name = Some (catalog_factory c) /\
  lookup h' (length h) identity_name = Some (identity_factory identity) /\
  (forall n f, n <> origin_name -> n <> catalog_name -> n <> identity_name ->
     (lookup h' (length h) n = Some f <-> In f (offered l servers) /\ fname f = n)) /\
  (forall i n, (i < length h)%nat -> lookup h' i n = lookup h i n).
Proof.
  intros (_ & N & _). set (g := offered l servers) in *.
  assert (W : wf (global g)) by (intros [|[|i]] x q H P; cbn in H; try discriminate; injection H as <-; discriminate).
  assert (B : forall n f, lookup (global g) 0 n = Some f <-> In f g /\ fname f = n).
  { intros n f. rewrite (lookup_unfold (global g) 0 _ n W eq_refl). cbn [factories parent].
    assert (G : forall fs, NoDup (map fname fs) -> (mget (map (fun x => (fname x, x)) fs) n = Some f <-> In f fs /\ fname f = n)).
    { clear. induction fs as [|x fs IH]; intro ND; [cbn; split; [discriminate|tauto]|]. cbn [map mget] in *. inversion_clear ND as [|? ? N1 N2].
      destruct (beq n (fname x)) eqn:E.
      - apply beq_iff in E. split; [intro X; injection X as <-; split; [now left|congruence]|]. intros ([-> | I] & F); [reflexivity|].
        exfalso. apply N1. rewrite <- E, <- F. now apply in_map.
      - rewrite (IH N2). split; [intros (I & F); split; [now right|assumption]|]. intros ([-> | I] & F); [|auto].
        exfalso. apply Bool.not_true_iff_false in E. apply E. now apply beq_iff. }
    rewrite <- map_rev. destruct (mget (map (fun x => (fname x, x)) (rev g)) n) eqn:M.
    - rewrite <- M, G by (rewrite map_rev; now apply NoDup_rev). now rewrite <- in_rev.
    - split; [discriminate|]. intros (I & F). assert (Z : mget (map (fun x => (fname x, x)) (rev g)) n = Some f) by (apply G; [rewrite map_rev; now apply NoDup_rev|rewrite <- in_rev; auto]).
      congruence. }
  assert (P : forall before h, wf h -> (0 < length h)%nat -> exists h', create_instances vn vr identity h before = Ok h' /\ wf h' /\
     length h' = (length h + length before)%nat /\ forall n, lookup h' 0 n = lookup h 0 n).
  { clear before. induction before as [|(o', c') t IH]; intros h Wh Lh.
    - exists h. split; [reflexivity|]. split; [assumption|]. split; [cbn; lia|reflexivity].
    - cbn [create_instances]. destruct (instance_ok h o' c' Wh Lh) as (h1 & E & W1 & L1 & _ & _ & _ & _ & O). rewrite E. cbn [bind fst].
      destruct (IH h1 W1 ltac:(lia)) as (h2 & E2 & W2 & L2 & O2). exists h2. split; [assumption|]. split; [assumption|]. split; [cbn; lia|].
      intro n. rewrite O2. apply O. lia. }
  destruct (P before (global g) W ltac:(cbn; lia)) as (h & E & Wh & Lh & Oh). cbn in Lh.
  destruct (instance_ok h o c Wh ltac:(lia)) as (h' & E' & _ & _ & A1 & A2 & A3 & A4 & A5).
  exists h, h'. split; [assumption|]. split; [assumption|]. split; [assumption|]. split; [assumption|]. split; [assumption|]. split; [assumption|]. split; [|assumption].
  intros n f N1 N2 N3. rewrite A4, Oh by assumption. apply B.
Qed.
End Instances.

(* Non-vacuity *)
Definition ext (n : bytes) c s := Extension n c s true.
Definition svc (i : nat) (n : bytes) := Factory i n revision0 true.
Example settings1 : Settings 7 8 [ext [1] (Some 1%nat) []; ext [2] (Some 2%nat) []; ext [1] None []; ext [2] (Some 3%nat) []; ext [2] (Some 4%nat) []; ext origin_name (Some 5%nat) []]
  = [(origin_name, 8%nat); (grpc_name, 7%nat); (origin_name, 5%nat); ([1], 1%nat)].
Proof. reflexivity. Qed.
Example start1 : startable (fun _ => true) (fun _ => true) [ext [1] None [svc 1 [97]; svc 2 origin_name]] [[svc 3 [98]]].
Proof.
  unfold startable, offered. split; [repeat constructor|]. split.
  - cbn. repeat constructor; cbn; intros H; repeat (destruct H as [H | H]; [discriminate H|]); exact H.
  - repeat constructor; cbv; discriminate.
Qed.
Example start2 : init_services (fun _ => true) (fun _ => true) [ext [1] None [svc 1 [97]]] [[svc 3 [97]]] = Err. Proof. reflexivity. Qed.

Print Assumptions config_exact.
Print Assumptions settings_exact.
Print Assumptions started_exactly.
Print Assumptions instances_services.
