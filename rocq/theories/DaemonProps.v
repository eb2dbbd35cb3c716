(* DaemonProps.v: the daemon's calls have the scopes that were asked for (C129), calls are served (C130), files are closed once (C131),
   static files (C132). *)
From Verif Require Import Daemon ScopeProps.
From Coq Require Import Permutation Lia.

Lemma pc_same s t p : d_pc (set_pc s t p) t = p.
Proof. cbn. now rewrite Nat.eqb_refl. Qed.
Lemma pc_other s t p u : u <> t -> d_pc (set_pc s t p) u = d_pc s u.
Proof. intros N. cbn. now rewrite (proj2 (Nat.eqb_neq _ _) N). Qed.
Lemma drun_cons names s e l : drun names s (e :: l) = drun names (dstep names s e) l. Proof. reflexivity. Qed.
Lemma drun_app names s l l' : drun names s (l ++ l') = drun names (drun names s l) l'. Proof. apply fold_left_app. Qed.

(* ---- C129 ---- *)
(* A call which isn't going to change the shared context *)
Definition no_scope (p : pc) : Prop := match p with PIdle (Some _) | PComputed _ _ => False | _ => True end.

Lemma other_no_scope names s u : no_scope (d_pc s u) -> d_ctx (dstep names s (Step u)) = d_ctx s /\ no_scope (d_pc (dstep names s (Step u)) u).
Proof.
  intros N. cbn [dstep]. unfold step_call. destruct (d_pc s u) as [[sc|]|c n| | |v| | | |c|] eqn:P; cbn in N; try contradiction;
    try (split; [reflexivity|]; rewrite ?pc_same; try exact I; cbn; rewrite ?Nat.eqb_refl; try exact I; try (destruct (d_server s); [|destruct (d_inited s)]; exact I)).
  - destruct (d_chan s); [destruct (d_closed s)|]; (split; [reflexivity|]); cbn; rewrite ?Nat.eqb_refl; try exact I. rewrite P. exact I.
  - rewrite P. exact I.
  - rewrite P. exact I.
Qed.
Lemma step_pc_other names s u t : t <> u -> d_pc (dstep names s (Step u)) t = d_pc s t.
Proof.
  intros N. cbn [dstep]. unfold step_call.
  destruct (d_pc s u) as [[sc|]|c n| | |v| | | |c|] eqn:P; rewrite ?pc_other by assumption; try reflexivity; cbn; rewrite ?(proj2 (Nat.eqb_neq _ _) N); try reflexivity.
  destruct (d_chan s); [destruct (d_closed s)|]; cbn; rewrite ?(proj2 (Nat.eqb_neq _ _) N); reflexivity.
Qed.

Definition own (names : list str) (c0 : option (list str)) (sc : list str) (s : dstate) (t : nat) : Prop :=
  match d_pc s t with
  | PIdle (Some sc') => sc' = sc /\ d_ctx s = c0
  | PIdle None => False
  | PComputed c _ => c = Context names c0 sc /\ d_ctx s = c0
  | PRun c => c = Context names c0 sc
  | _ => d_ctx s = Context names c0 sc
  end.
Lemma own_run names c0 sc t : forall l s, own names c0 sc s t ->
  (forall u, u <> t -> In (Step u) l -> no_scope (d_pc s u)) -> own names c0 sc (drun names s l) t.
Proof.
  induction l as [|e l IH]; intros s O N; [exact O|]. rewrite drun_cons. apply IH.
  - destruct e as [u| |].
    + destruct (Nat.eq_dec u t) as [->|D].
      * unfold own in *. cbn [dstep]. unfold step_call.
        destruct (d_pc s t) as [[sc'|]|c n| | |v| | | |c|] eqn:P; try contradiction; rewrite ?pc_same.
        -- destruct O as [-> O]. rewrite O. split; [reflexivity | exact O].
        -- destruct O as [-> O]. cbn. rewrite Nat.eqb_refl. reflexivity.
        -- cbn. destruct (d_server s); [exact O|]. destruct (d_inited s); exact O.
        -- destruct (d_chan s); [destruct (d_closed s)|]; cbn; rewrite ?Nat.eqb_refl, ?P; exact O.
        -- cbn. rewrite Nat.eqb_refl. exact O.
        -- cbn. rewrite Nat.eqb_refl. exact O.
        -- cbn. destruct (d_server s); exact O.
        -- exact O.
        -- rewrite P. exact O.
        -- rewrite P. exact O.
      * assert (A : no_scope (d_pc s u)) by (apply N; [exact D | left; reflexivity]).
        destruct (other_no_scope names s u A) as [C _]. unfold own in *. rewrite step_pc_other, C by (intros F; now apply D). exact O.
    + cbn [dstep]. destruct (d_closed s); exact O.
    + exact O.
  - intros u D I. specialize (N u D (or_intror I)). destruct e as [v| |].
    + destruct (Nat.eq_dec u v) as [->|Q]; [apply other_no_scope; exact N | rewrite step_pc_other by exact Q; exact N].
    + cbn [dstep]. destruct (d_closed s); exact N.
    + exact N.
Qed.
(* If no other call changes the context meanwhile, a call runs with exactly the scopes that it asked for.  Missing: calls that overlap. *)
Theorem daemon_scope_partial : forall names s t sc l c, d_pc s t = PIdle (Some sc) ->
  (forall u, u <> t -> In (Step u) l -> no_scope (d_pc s u)) ->
  d_pc (drun names s l) t = PRun c ->
  forall x, ContextContains c x = true <-> exists g, In g sc /\ Resolve names g = x.
Proof.
  intros names s t sc l c P N R x.
  assert (O : own names (d_ctx s) sc (drun names s l) t) by (apply own_run; [unfold own; rewrite P; auto | exact N]).
  unfold own in O. rewrite R in O. subst c. unfold Context. destruct sc as [|g sc].
  - destruct (d_ctx s); cbn; (split; [discriminate | intros [g [[] _]]]).
  - cbn [ContextContains]. rewrite existsb_exists. split.
    + intros [y [I E]]. apply seqb_eq in E. subst y. apply in_map_iff in I. destruct I as [z [E I]]. eauto.
    + intros [z [I E]]. exists x. split; [apply in_map_iff; eauto | apply seqb_refl].
Qed.
Print Assumptions daemon_scope_partial.

(* program:system *)
Definition system_scope : str := [112;114;111;103;114;97;109;58;115;121;115;116;101;109]%Z.
Definition ready (calls : nat -> option (list str)) : dstate := DS None 0 0 false true false (fun t => PIdle (calls t)).
Example ready_reachable : forall names calls, exists l, let s := drun names (dinit calls) l in
  d_server s = true /\ d_inited s = false /\ d_chan s = O /\ d_closed s = false.
Proof. intros names calls. exists [Init; Step 0; Step 0; Step 0; Step 0; Step 0; Step 0]. cbn. destruct (calls 0%nat); cbn; auto. Qed.
Example ex_scope : d_pc (drun [system_scope] (ready (fun t => match t with 0%nat => Some [system_scope] | 1%nat => Some [] | _ => None end))
    [Step 0; Step 2; Step 0; Step 2; Step 0; Step 2; Step 0; Step 1; Step 1; Step 1; Step 1]) 1 = PRun (Some []).
Proof. reflexivity. Qed.
(* A call that asked for no scope runs with another call's. *)
Theorem daemon_scope_refuted : exists calls l, calls 1%nat = Some [] /\
  exists c, d_pc (drun [system_scope] (ready calls) l) 1 = PRun c /\ ContextContains c system_scope = true.
Proof.
  exists (fun t => match t with 0%nat => Some [system_scope] | _ => Some [] end), [Step 1; Step 1; Step 1; Step 0; Step 0; Step 1].
  split; [reflexivity|]. eexists. split; reflexivity.
Qed.
Print Assumptions daemon_scope_refuted.

Lemma solo1 names s t sc : d_pc s t = PIdle (Some sc) -> let s' := dstep names s (Step t) in
  d_server s' = d_server s /\ d_layers s' = d_layers s /\ d_ctx s' = d_ctx s /\
  d_pc s' t = PComputed (Context names (d_ctx s) sc) (layers_of (d_ctx s) sc (d_layers s)).
Proof. intros P. cbn [dstep]. unfold step_call. rewrite P, pc_same. repeat split. Qed.
Lemma solo2 names s t c n : d_pc s t = PComputed c n -> let s' := dstep names s (Step t) in
  d_server s' = d_server s /\ d_layers s' = n /\ d_ctx s' = c /\ d_pc s' t = PServer.
Proof. intros P. cbn [dstep]. unfold step_call. rewrite P. cbn. rewrite Nat.eqb_refl. repeat split. Qed.
Lemma solo3 names s t : d_pc s t = PServer -> d_server s = true -> let s' := dstep names s (Step t) in
  d_server s' = d_server s /\ d_layers s' = d_layers s /\ d_ctx s' = d_ctx s /\ d_pc s' t = PHave.
Proof. intros P S. cbn [dstep]. unfold step_call. rewrite P, S, pc_same. cbn. rewrite S. repeat split. Qed.
Lemma solo4 names s t : d_pc s t = PHave -> let s' := dstep names s (Step t) in
  d_server s' = d_server s /\ d_layers s' = d_layers s /\ d_ctx s' = d_ctx s /\ d_pc s' t = PRun (d_ctx s).
Proof. intros P. cbn [dstep]. unfold step_call. rewrite P, pc_same. repeat split. Qed.
(* The shared context grows with every call. *)
Theorem daemon_context_bounded_refuted : forall names sc n, sc <> [] -> exists l, let s := drun names (ready (fun _ => Some sc)) l in
  d_layers s = n /\ (forall t, (t < n)%nat -> exists c, d_pc s t = PRun c) /\ (forall t, (n <= t)%nat -> d_pc s t = PIdle (Some sc)).
Proof.
  intros names sc n NE.
  enough (H : exists l, let s := drun names (ready (fun _ => Some sc)) l in d_server s = true /\ d_layers s = n /\
    (forall t, (t < n)%nat -> exists c, d_pc s t = PRun c) /\ (forall t, (n <= t)%nat -> d_pc s t = PIdle (Some sc)))
    by (destruct H as [l [_ H]]; exists l; exact H).
  induction n as [|n [l IH]].
  - exists []. cbn. repeat split; auto. intros t L. lia.
  - exists (l ++ [Step n; Step n; Step n; Step n]). cbv zeta in *. rewrite drun_app. set (s := drun _ _ l) in *. clearbody s.
    destruct IH as [S [L [A B]]].
    assert (Q : let s4 := drun names s [Step n; Step n; Step n; Step n] in d_server s4 = true /\ d_layers s4 = Datatypes.S n /\ exists c, d_pc s4 n = PRun c).
    { cbv zeta. rewrite !drun_cons. cbn [drun fold_left].
      destruct (solo1 names s n sc (B n (Nat.le_refl n))) as [A1 [A2 [A3 A4]]]. set (s1 := dstep names s (Step n)) in *. clearbody s1.
      destruct (solo2 names s1 n _ _ A4) as [B1 [B2 [B3 B4]]]. set (s2 := dstep names s1 (Step n)) in *. clearbody s2.
      assert (SV : d_server s2 = true) by congruence.
      destruct (solo3 names s2 n B4 SV) as [D1 [D2 [D3 D4]]]. set (s3 := dstep names s2 (Step n)) in *. clearbody s3.
      destruct (solo4 names s3 n D4) as [E1 [E2 [E3 E4]]].
      split; [congruence|]. split; [|eauto]. rewrite E2, D2, B2, L. unfold layers_of. destruct sc; [contradiction | reflexivity]. }
    destruct Q as [Q1 [Q2 [c P]]]. split; [exact Q1|]. split; [exact Q2|].
    assert (O : forall t, t <> n -> d_pc (drun names s [Step n; Step n; Step n; Step n]) t = d_pc s t)
      by (intros t D; cbn [drun fold_left]; rewrite !step_pc_other by exact D; reflexivity).
    split.
    + intros t T. destruct (Nat.eq_dec t n) as [->|D]; [eauto|]. rewrite O by exact D. apply A. lia.
    + intros t T. rewrite O by lia. apply B. lia.
Qed.
Print Assumptions daemon_context_bounded_refuted.

(* ---- C130 ---- *)
Definition not_waiting (p : pc) : Prop := match p with PReceive | PReceived _ | PClear | PAbort => False | _ => True end.
(* Once the server is known and no call waits for it, no call waits or fails because of that, even during shutdown. *)
Theorem daemon_serves_partial : forall names s l, d_server s = true -> (forall t, not_waiting (d_pc s t)) ->
  forall t, let s' := drun names s l in
  d_pc s' t <> PAbort /\ ((exists c, d_pc s' t = PRun c) \/ step_call names s' t <> None).
Proof.
  intros names s l S W.
  assert (G : d_server (drun names s l) = true /\ forall t, not_waiting (d_pc (drun names s l) t)).
  { revert s S W. induction l as [|e l IH]; intros s S W; [auto|]. rewrite drun_cons. destruct e as [u| |].
    - assert (A : d_server (dstep names s (Step u)) = true /\ not_waiting (d_pc (dstep names s (Step u)) u)).
      { specialize (W u). cbn [dstep]. unfold step_call. destruct (d_pc s u) as [[sc|]|c n| | |v| | | |c|] eqn:P; cbn in W; try contradiction;
          cbn; rewrite ?Nat.eqb_refl, ?S, ?P; cbn; auto. }
      apply IH; [apply A|]. intros t. destruct (Nat.eq_dec t u) as [->|D]; [apply A|]. rewrite step_pc_other by exact D. apply W.
    - apply IH; cbn [dstep]; destruct (d_closed s); assumption.
    - apply IH; assumption. }
  intros t s'. destruct G as [G1 G2]. fold s' in G1, G2. specialize (G2 t). unfold step_call.
  destruct (d_pc s' t) as [[sc|]|c n| | |v| | | |c|] eqn:P; cbn in G2; try contradiction; (split; [discriminate|]); eauto; right; discriminate.
Qed.
Print Assumptions daemon_serves_partial.
(* The shared variables but the context *)
Definition vars (s : dstate) : nat * bool * bool * bool := (d_chan s, d_closed s, d_server s, d_inited s).
Lemma go_idle names s t x : d_pc s t = PIdle None -> vars s = x -> let s' := dstep names s (Step t) in d_pc s' t = PServer /\ vars s' = x.
Proof. intros P <-. cbn [dstep]. unfold step_call. rewrite P, pc_same. split; reflexivity. Qed.
Lemma go_scope names s t sc x : d_pc s t = PIdle (Some sc) -> vars s = x -> let s' := dstep names s (Step t) in (exists c n, d_pc s' t = PComputed c n) /\ vars s' = x.
Proof. intros P <-. cbn [dstep]. unfold step_call. rewrite P, pc_same. split; [eauto | reflexivity]. Qed.
Lemma go_computed names s t c n x : d_pc s t = PComputed c n -> vars s = x -> let s' := dstep names s (Step t) in d_pc s' t = PServer /\ vars s' = x.
Proof. intros P <-. cbn [dstep]. unfold step_call. rewrite P. cbn. rewrite Nat.eqb_refl. split; reflexivity. Qed.
Lemma go_server names s t n b : d_pc s t = PServer -> vars s = (n, b, false, true) -> let s' := dstep names s (Step t) in d_pc s' t = PReceive /\ vars s' = (n, b, false, true).
Proof. unfold vars. intros P [= <- <- S I]. cbn [dstep]. unfold step_call. rewrite P, S, I, pc_same. cbn. rewrite S, I. split; reflexivity. Qed.
Lemma go_receive names s t n b x y : d_pc s t = PReceive -> vars s = (S n, b, x, y) -> let s' := dstep names s (Step t) in d_pc s' t = PReceived true /\ vars s' = (n, b, x, y).
Proof. unfold vars. intros P [= C <- <- <-]. cbn [dstep]. unfold step_call. rewrite P, C. cbn. rewrite Nat.eqb_refl. split; reflexivity. Qed.
Lemma go_closed names s t x y : d_pc s t = PReceive -> vars s = (O, true, x, y) -> let s' := dstep names s (Step t) in d_pc s' t = PReceived false /\ vars s' = (O, true, x, y).
Proof. unfold vars. intros P [= C D <- <-]. cbn [dstep]. unfold step_call. rewrite P, C, D. cbn. rewrite Nat.eqb_refl, ?C, ?D. split; reflexivity. Qed.
Lemma go_received names s t v n b x y : d_pc s t = PReceived v -> vars s = (n, b, x, y) -> let s' := dstep names s (Step t) in d_pc s' t = PClear /\ vars s' = (n, b, v, y).
Proof. unfold vars. intros P [= <- <- _ <-]. cbn [dstep]. unfold step_call. rewrite P. cbn. rewrite Nat.eqb_refl. split; reflexivity. Qed.
Lemma go_clear names s t n b x y : d_pc s t = PClear -> vars s = (n, b, x, y) -> let s' := dstep names s (Step t) in d_pc s' t = PCheck /\ vars s' = (n, b, x, false).
Proof. unfold vars. intros P [= <- <- <- _]. cbn [dstep]. unfold step_call. rewrite P. cbn. rewrite Nat.eqb_refl. split; reflexivity. Qed.
Lemma go_check names s t n b (x : bool) y : d_pc s t = PCheck -> vars s = (n, b, x, y) -> let s' := dstep names s (Step t) in d_pc s' t = (if x then PHave else PAbort) /\ vars s' = (n, b, x, y).
Proof. unfold vars. intros P [= <- <- <- <-]. cbn [dstep]. unfold step_call. rewrite P, pc_same. split; reflexivity. Qed.
Lemma go_have names s t x : d_pc s t = PHave -> vars s = x -> let s' := dstep names s (Step t) in (exists c, d_pc s' t = PRun c) /\ vars s' = x.
Proof. intros P <-. cbn [dstep]. unfold step_call. rewrite P, pc_same. split; [eauto | reflexivity]. Qed.
Lemma go_init names s t n x y p : d_pc s t = p -> vars s = (n, false, x, y) -> let s' := dstep names s Init in d_pc s' t = p /\ vars s' = (S n, false, x, y).
Proof. unfold vars. intros P [= <- D <- <-]. cbn [dstep]. rewrite D. cbn. auto. Qed.

Lemma wait_run names t : forall l s, d_pc s t = PReceive -> d_chan s = O -> d_closed s = false -> ~ In Shutdown l -> ~ In Init l -> d_pc (drun names s l) t = PReceive.
Proof.
  induction l as [|e l IH]; intros s P C D NS NI; [exact P|]. rewrite drun_cons.
  assert (A : d_pc (dstep names s e) t = PReceive /\ d_chan (dstep names s e) = O /\ d_closed (dstep names s e) = false).
  { destruct e as [u| |]; [|destruct NI; now left | destruct NS; now left].
    destruct (Nat.eq_dec u t) as [->|Q].
    - cbn [dstep]. unfold step_call. rewrite P, C, D. auto.
    - rewrite step_pc_other by (intros F; now apply Q). split; [exact P|]. cbn [dstep]. unfold step_call.
      destruct (d_pc s u) as [[sc|]|c n| | |v| | | |c|]; rewrite ?C, ?D; cbn; rewrite ?C, ?D; auto. }
  apply IH; [apply A.. | intros F; apply NS; now right | intros F; apply NI; now right].
Qed.
Lemma to_receive names s t : vars s = (O, false, false, true) -> (exists sc, d_pc s t = PIdle sc) -> exists n,
  d_pc (drun names s (repeat (Step t) n)) t = PReceive /\ vars (drun names s (repeat (Step t) n)) = (O, false, false, true).
Proof.
  intros V [[sc|] P].
  - exists 3%nat. cbn [repeat]. rewrite !drun_cons. cbn [drun fold_left].
    destruct (go_scope names s t sc _ P V) as [[c [n P1]] V1]. destruct (go_computed names _ t c n _ P1 V1) as [P2 V2].
    exact (go_server names _ t _ _ P2 V2).
  - exists 2%nat. cbn [repeat]. rewrite !drun_cons. cbn [drun fold_left].
    destruct (go_idle names s t _ P V) as [P1 V1]. exact (go_server names _ t _ _ P1 V1).
Qed.
Lemma from_receive names s t n : d_pc s t = PReceive -> vars s = (S n, false, false, true) -> let s' := drun names s (repeat (Step t) 5) in
  (exists c, d_pc s' t = PRun c) /\ vars s' = (n, false, true, false).
Proof.
  intros P V. cbn [repeat]. rewrite !drun_cons. cbn [drun fold_left].
  destruct (go_receive names s t _ _ _ _ P V) as [P1 V1]. destruct (go_received names _ t _ _ _ _ _ P1 V1) as [P2 V2].
  destruct (go_clear names _ t _ _ _ _ P2 V2) as [P3 V3]. destruct (go_check names _ t _ _ _ _ P3 V3) as [P4 V4]. exact (go_have names _ t _ P4 V4).
Qed.
Lemma in_repeat e n l : In e (repeat (Step l) n) -> e = Step l. Proof. apply repeat_spec. Qed.

(* A single call that's made during the initialization waits for it, and is served after that. *)
Theorem daemon_first_call_partial : forall names calls t, exists n,
  (forall k, d_pc (drun names (dinit calls) (repeat (Step t) (n + k))) t = PReceive) /\
  forall k, exists c, d_pc (drun names (dinit calls) (repeat (Step t) (n + k) ++ [Init] ++ repeat (Step t) 5)) t = PRun c.
Proof.
  intros names calls t. destruct (to_receive names (dinit calls) t eq_refl) as [n [P V]]; [exists (calls t); reflexivity|]. exists n.
  assert (W : forall k, drun names (dinit calls) (repeat (Step t) (n + k)) = drun names (dinit calls) (repeat (Step t) n)).
  { intros k. rewrite repeat_app, drun_app. set (s := drun _ _ _) in *. clearbody s. unfold vars in V. injection V as C D _ _.
    induction k as [|k IH]; [reflexivity|]. cbn [repeat]. rewrite drun_cons.
    assert (E : dstep names s (Step t) = s) by (cbn [dstep]; unfold step_call; rewrite P, C, D; reflexivity). rewrite E. exact IH. }
  split; intros k.
  - rewrite W. exact P.
  - rewrite drun_app, W. cbn [app]. rewrite drun_cons. destruct (go_init names _ t _ _ _ _ P V) as [P1 V1].
    destruct (from_receive names _ t _ P1 V1) as [H _]. exact H.
Qed.
Print Assumptions daemon_first_call_partial.
(* Of two calls that are made during the initialization, one is served; the other one waits until the daemon is shut down, whatever else
   happens, and then fails. *)
Theorem daemon_early_calls_refuted : forall names calls t u, t <> u -> exists l,
  (exists c, d_pc (drun names (dinit calls) l) t = PRun c) /\
  (forall l', ~ In Shutdown l' -> ~ In Init l' -> d_pc (drun names (dinit calls) (l ++ l')) u = PReceive) /\
  d_pc (drun names (dinit calls) (l ++ [Shutdown; Step u; Step u; Step u; Step u])) u = PAbort.
Proof.
  intros names calls t u NE.
  assert (OT : forall s v w n, v <> w -> d_pc (drun names s (repeat (Step w) n)) v = d_pc s v).
  { intros s v w n D. revert s. induction n as [|n IH]; intros s; [reflexivity|]. cbn [repeat]. rewrite drun_cons, IH. now apply step_pc_other. }
  destruct (to_receive names (dinit calls) t eq_refl) as [n [P V]]; [exists (calls t); reflexivity|].
  set (s1 := drun names (dinit calls) (repeat (Step t) n)) in *.
  destruct (to_receive names s1 u V) as [m [PU VU]]; [exists (calls u); unfold s1; apply OT; auto|].
  set (s2 := drun names s1 (repeat (Step u) m)) in *.
  assert (PT : d_pc s2 t = PReceive) by (unfold s2; rewrite OT by exact NE; exact P).
  destruct (go_init names s2 t _ _ _ _ PT VU) as [P3 V3]. destruct (go_init names s2 u _ _ _ _ PU VU) as [P3U _].
  destruct (from_receive names _ t _ P3 V3) as [R V4].
  exists (repeat (Step t) n ++ repeat (Step u) m ++ [Init] ++ repeat (Step t) 5).
  assert (E : forall l', drun names (dinit calls) ((repeat (Step t) n ++ repeat (Step u) m ++ [Init] ++ repeat (Step t) 5) ++ l') = drun names (drun names (dstep names s2 Init) (repeat (Step t) 5)) l').
  { intros l'. rewrite <- !app_assoc. rewrite !drun_app. reflexivity. }
  pose proof (E []) as E0. rewrite app_nil_r in E0. rewrite E0.
  set (s4 := drun names (dstep names s2 Init) (repeat (Step t) 5)) in *.
  assert (P4 : d_pc s4 u = PReceive) by (unfold s4; rewrite OT by auto; exact P3U).
  clearbody s4. split; [exact R|]. split.
  - intros l' NS NI. rewrite E. unfold vars in V4. injection V4 as C D _ _. now apply wait_run.
  - rewrite E, !drun_cons. cbn [drun fold_left].
    assert (P5 : d_pc (dstep names s4 Shutdown) u = PReceive) by exact P4.
    assert (V5 : vars (dstep names s4 Shutdown) = (O, true, true, false)) by (unfold vars in *; injection V4 as C _ S I; cbn; congruence).
    destruct (go_closed names _ u _ _ P5 V5) as [P6 V6]. destruct (go_received names _ u _ _ _ _ _ P6 V6) as [P7 V7].
    destruct (go_clear names _ u _ _ _ _ P7 V7) as [P8 V8]. destruct (go_check names _ u _ _ _ _ P8 V8) as [P9 _]. exact P9.
Qed.
Print Assumptions daemon_early_calls_refuted.

(* ---- C131 ---- *)
(* The logs that are given *)
Definition given (l : list iop) : list nat := flat_map (fun o => match o with ILaunch (Some n) _ _ | IResume (Some n) _ _ => [n] | _ => [] end) l.
Definition launch (o : iop) : Prop := match o with ILaunch _ _ _ => True | _ => False end.
Definition opt {A} (x : option A) : list A := match x with Some a => [a] | None => [] end.

Lemma closing_perm log c : Permutation (closing log c) (c ++ opt log).
Proof. destruct log; cbn; [reflexivity | now rewrite app_nil_r]. Qed.
Definition log_of (o : iop) : list nat := match o with ILaunch (Some n) _ _ | IResume (Some n) _ _ => [n] | _ => [] end.
Lemma iop_keeps i o : (i_running i = false -> i_log i = None) -> ~ launch o ->
  Permutation (i_closed (iop_step i o) ++ opt (i_log (iop_step i o))) ((i_closed i ++ opt (i_log i)) ++ log_of o) /\
  (i_running (iop_step i o) = false -> i_log (iop_step i o) = None).
Proof.
  intros R N. destruct o as [log su ok|log ck ok|]; [destruct (N I)| |].
  - cbn [iop_step log_of]. replace (match log with Some n => [n] | None => [] end) with (opt log) by reflexivity. destruct (i_running i) eqn:E; [|destruct ck; [destruct ok|]]; cbn [negb i_closed i_log i_running stop opt].
    + split; [|discriminate]. rewrite closing_perm, <- !app_assoc. apply Permutation_app_head, Permutation_app_comm.
    + split; [|discriminate]. rewrite R by reflexivity. cbn. rewrite app_nil_r. reflexivity.
    + split; [|reflexivity]. rewrite R by reflexivity. cbn. rewrite closing_perm, !app_nil_r. reflexivity.
    + split; [|exact R]. rewrite R by reflexivity. cbn. rewrite closing_perm, !app_nil_r. reflexivity.
  - cbn [iop_step log_of]. rewrite app_nil_r. destruct (i_running i) eqn:E; cbn [stop i_closed i_log i_running opt].
    + split; [|reflexivity]. rewrite closing_perm, app_nil_r. reflexivity.
    + split; [reflexivity | intros _; now apply R].
Qed.
Lemma iop_hist : forall l i, (i_running i = false -> i_log i = None) -> (forall o, In o l -> ~ launch o) ->
  Permutation (i_closed (fold_left iop_step l i) ++ opt (i_log (fold_left iop_step l i))) ((i_closed i ++ opt (i_log i)) ++ given l) /\
  (i_running (fold_left iop_step l i) = false -> i_log (fold_left iop_step l i) = None).
Proof.
  induction l as [|o l IH]; intros i R N; cbn [fold_left].
  - cbn. rewrite app_nil_r. auto.
  - destruct (iop_keeps i o R (N o (or_introl eq_refl))) as [P R']. destruct (IH _ R' (fun o' I => N o' (or_intror I))) as [P' R2].
    split; [|exact R2]. rewrite P', P. change (given (o :: l)) with (log_of o ++ given l). rewrite <- !app_assoc. reflexivity.
Qed.
(* Each debug log that's given is closed exactly once by the time that the instance isn't running, and the log of the current run isn't
   closed before that.  Missing: an instance that's created in suspended state. *)
Theorem debug_logs_closed_partial : forall log ok l, (forall o, In o l -> ~ launch o) ->
  let h := ILaunch log false ok :: l in let i := ihistory h in
  Permutation (i_closed i ++ opt (i_log i)) (given h) /\ (i_running i = false -> Permutation (i_closed i) (given h)).
Proof.
  intros log ok l N h i. unfold i, ihistory, h. cbn [fold_left].
  set (i0 := iop_step _ _).
  assert (H : (i_running i0 = false -> i_log i0 = None) /\ Permutation (i_closed i0 ++ opt (i_log i0)) (opt log)).
  { unfold i0. cbn. destruct ok; cbn; [split; [discriminate | reflexivity]|]. split; [reflexivity|]. rewrite closing_perm, app_nil_r. reflexivity. }
  clearbody i0. destruct H as [R P]. destruct (iop_hist l i0 R N) as [P' R'].
  assert (Q : Permutation (i_closed (fold_left iop_step l i0) ++ opt (i_log (fold_left iop_step l i0))) (given (ILaunch log false ok :: l)))
    by (rewrite P', P; destruct log; reflexivity).
  split; [exact Q|]. intros E. rewrite (R' E) in Q. cbn in Q. rewrite app_nil_r in Q. exact Q.
Qed.
Print Assumptions debug_logs_closed_partial.
Example ex_logs : i_closed (ihistory [ILaunch (Some 1%nat) false true; IResume (Some 2%nat) true true; IStop; IResume (Some 3%nat) true true; IStop]) = [2; 1; 3]%nat.
Proof. reflexivity. Qed.
(* The log that's given when an instance is created in suspended state is never closed if the instance is resumed. *)
Theorem debug_logs_closed_refuted : forall log l, (forall o, In o l -> ~ launch o) -> ~ In log (given l) ->
  forall log2 ok, ~ In log (opt log2) -> ~ In log (i_closed (ihistory (ILaunch (Some log) true true :: IResume log2 true ok :: l))).
Proof.
  intros log l N G log2 ok G2. unfold ihistory. cbn [fold_left iop_step i_running negb i_closed].
  set (i0 := if ok then _ else _).
  assert (H : (i_running i0 = false -> i_log i0 = None) /\ Permutation (i_closed i0 ++ opt (i_log i0)) (opt log2)).
  { unfold i0. destruct ok; cbn; [split; [discriminate | reflexivity]|]. split; [reflexivity|]. rewrite closing_perm, app_nil_r. reflexivity. }
  clearbody i0. destruct H as [R P]. destruct (iop_hist l i0 R N) as [P' _]. intros I.
  assert (J : In log (opt log2 ++ given l)) by (rewrite <- P, <- P'; apply in_or_app; now left).
  apply in_app_or in J. destruct J; contradiction.
Qed.
Print Assumptions debug_logs_closed_refuted.

(* The files that are passed with a call *)
Definition passed (m : modfile) : list fd := [FSuspend; FR; FW; FDebug] ++ match m with MId => [] | _ => [FModule] end.
Theorem call_files_closed_partial : forall m logging l, (forall b, m <> MOther b) -> Permutation (doCall m logging l) (passed m).
Proof.
  intros m logging l N. apply NoDup_Permutation_bis.
  - destruct m as [| |b]; [| |destruct (N b eq_refl)]; destruct logging, l; cbn; repeat constructor; cbn; intuition discriminate.
  - destruct m as [| |b]; [| |destruct (N b eq_refl)]; destruct logging, l; cbn; lia.
  - intros f. destruct m as [| |b]; [| |destruct (N b eq_refl)]; destruct logging, l; cbn; intuition.
Qed.
Print Assumptions call_files_closed_partial.
(* In any case the other files are closed, and none is closed twice. *)
Theorem call_files_closed : forall m logging l f, In f [FSuspend; FR; FW; FDebug] -> In f (doCall m logging l) /\ NoDup (doCall m logging l).
Proof.
  intros m logging l f I. split.
  - destruct m as [| |[|]], logging, l; cbn in *; intuition.
  - destruct m as [| |[|]], logging, l; cbn; repeat constructor; cbn; intuition discriminate.
Qed.
Print Assumptions call_files_closed.
Theorem call_files_closed_refuted : forall b logging l, ~ In FModule (doCall (MOther b) logging l).
Proof. intros [|] [|] [| |]; cbn; intuition discriminate. Qed.
Print Assumptions call_files_closed_refuted.

(* ---- C132 ---- *)
Local Open Scope string_scope.
Notation "a +++ b" := (String.append a b) (at level 60, right associativity).
(* The elements of a path, which are separated by slashes *)
Fixpoint elements_from (word : string) (s : string) : list string :=
  match s with
  | EmptyString => [word]
  | String c t => if Ascii.eqb c "047"%char then word :: elements_from "" t else elements_from (word +++ String c "") t
  end.
Definition elements (s : string) : list string := elements_from "" s.

Lemma sapp_assoc a b c : (a +++ b) +++ c = a +++ b +++ c.
Proof. induction a as [|x a IH]; cbn; [reflexivity | now rewrite IH]. Qed.
Lemma sapp_nil a : a +++ "" = a.
Proof. induction a as [|x a IH]; cbn; [reflexivity | now rewrite IH]. Qed.
Lemma elements_slash : forall a w b, elements_from w (a +++ "/" +++ b) = (elements_from w a ++ elements b)%list.
Proof.
  induction a as [|c a IH]; intros w b; cbn; [reflexivity|]. destruct (Ascii.eqb c "047"); [cbn; f_equal; apply IH | apply IH].
Qed.
Lemma has_slash_spec : forall s, has_slash s = true -> exists t, s = t +++ "/".
Proof.
  induction s as [|c s IH]; cbn; [discriminate|]. destruct s as [|c' s].
  - destruct (Ascii.eqb_spec c "047") as [->|N]; [|discriminate]. intros _. exists "". reflexivity.
  - intros H. destruct (IH H) as [t E]. exists (String c t). cbn. now rewrite <- E.
Qed.
Lemma strip_prefix_spec : forall d path x, strip_prefix d path = Some x -> path = d +++ x.
Proof.
  induction d as [|c d IH]; intros path x; cbn; [congruence|].
  destruct path as [|c' path]; [discriminate|]. destruct (Ascii.eqb_spec c c') as [->|N]; [|discriminate]. intros H. now rewrite (IH _ _ H).
Qed.
Lemma has_slash_app : forall a b, b <> "" -> has_slash (a +++ b) = has_slash b.
Proof.
  intros a b N. induction a as [|x a IH]; [reflexivity|]. cbn [String.append has_slash].
  destruct (a +++ b) as [|y t] eqn:E; [|exact IH]. destruct a; [contradiction | discriminate].
Qed.
(* What's served is the configured file, or a file in the configured directory: nothing above it is named, if the request's path has no
   .. elements (http.ServeFile checks that).  Only GET and HEAD requests, and none of foreign origin. *)
Theorem static_files_confined : forall pattern path origin r_origin r_method r_path f,
  has_slash pattern = has_slash path ->
  staticHandler pattern path origin r_origin r_method r_path = File f ->
  (r_origin = "" \/ r_origin = origin) /\ (r_method = "GET" \/ r_method = "HEAD") /\
  ((r_path = pattern /\ f = path /\ has_slash path = false) \/
   (has_slash path = true /\ exists rest x, r_path = pattern +++ rest /\ f = path +++ x /\ (x = rest \/ x = rest +++ "index.html") /\
    has_slash f = false /\
    (~ In ".." (elements r_path) -> ~ In ".." (elements x)))).
Proof.
  intros pattern path origin ro rm rp f CP H. unfold staticHandler in H.
  destruct (String.eqb_spec ro "") as [O|O]; cbn [negb andb] in H.
  2: destruct (String.eqb_spec ro origin) as [O2|O2]; cbn [negb] in H; [|discriminate].
  all: destruct (String.eqb_spec rm "GET") as [M|M]; cbn [orb negb] in H;
    [|destruct (String.eqb_spec rm "HEAD") as [M2|M2]; cbn [negb] in H; [|discriminate]].
  all: (split; [auto|]; split; [auto|]).
  all: destruct (has_slash pattern) eqn:S.
  all: try (left; destruct (String.eqb_spec rp pattern) as [->|Q]; [|discriminate]; injection H as <-; auto; fail).
  all: right; split; [now symmetry|]; destruct (strip_prefix pattern rp) as [rest|] eqn:E; [|discriminate]; apply strip_prefix_spec in E; injection H as <-;
    apply has_slash_spec in S as [p0 S]; symmetry in CP; pose proof (has_slash_spec _ CP) as [q0 CQ];
    assert (EE : elements rp = (elements p0 ++ elements rest)%list) by (rewrite E, S, sapp_assoc; unfold elements at 1; apply elements_slash);
    destruct (has_slash (path +++ rest)) eqn:F.
  all: try (exists rest, rest; split; [exact E|]; split; [reflexivity|]; split; [left; reflexivity|]; split; [exact F|];
    intros ND I; apply ND; rewrite EE; apply in_or_app; now right).
  all: exists rest, (rest +++ "index.html"); split; [exact E|]; split; [apply sapp_assoc|]; split; [right; reflexivity|];
    split; [now rewrite has_slash_app|]; intros ND I; apply ND; rewrite EE; apply in_or_app; right;
    destruct rest as [|c rest]; [cbn in I; destruct I as [I|[]]; discriminate|];
    rewrite has_slash_app in F by discriminate; apply has_slash_spec in F as [r0 F]; rewrite F in *; rewrite sapp_assoc in I;
    unfold elements in I; rewrite elements_slash in I; change (r0 +++ "/") with (r0 +++ "/" +++ ""); unfold elements; rewrite elements_slash;
    apply in_or_app; apply in_app_or in I; destruct I as [I|I]; [left; exact I | cbn in I; destruct I as [I|[]]; discriminate].
Qed.
Print Assumptions static_files_confined.
Example ex_static : staticHandler "/ui/" "/srv/www/" "http://localhost:8080" "" "GET" "/ui/a/" = File "/srv/www/a/index.html" /\
  staticHandler "/ui/" "/srv/www/" "http://localhost:8080" "http://evil" "GET" "/ui/a" = Status 403 /\
  staticHandler "/favicon.ico" "/srv/icon" "http://localhost:8080" "http://localhost:8080" "HEAD" "/favicon.ico" = File "/srv/icon" /\
  staticHandler "/favicon.ico" "/srv/icon" "http://localhost:8080" "" "POST" "/favicon.ico" = Status 405.
Proof. repeat split. Qed.
