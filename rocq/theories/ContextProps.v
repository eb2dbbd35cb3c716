(* ContextProps.v: what contexts and events tell of requests. *)
From Verif Require Import ContextSpec ContextProofs.
From Coq Require Import Lia.
Local Open Scope nat_scope.

(** * C111 *)

(* If every request begins with a context of its own: whatever the other requests do, and when, the contexts and events of a
   request say what they would if it was the only one. *)
Theorem requests_isolated : forall l base r, view (run l (fresh base)) r = view (run (of_request r l) (fresh base)) r.
Proof. intros l base r. symmetry. apply rel_view, run_rel, rel_fresh. Qed.
Print Assumptions requests_isolated.

(* And if it always uses its newest context, then that tells (also to an authorizer that asks for the operation)
   exactly what the request has said: interface, number, address, operation and principal. *)
Theorem newest_context_tells : forall l base r, linear 0 (map snd (of_request r l)) ->
  exists c t, contexts (s_requests (run l (fresh base)) r) = c :: t /\
    let d := fold_left (fun d a => meant a d) (map snd (of_request r l)) (match base r with Some s => set_principal s no_detail | None => no_detail end) in
    told (s_heap (run l (fresh base))) c = d /\ context_op (s_heap (run l (fresh base))) c = d_op d.
Proof.
  intros l base r HL.
  assert (S : forall l h rs c t, Forall (fun x => fst x = r) l -> contexts (rs r) = c :: t -> linear (length t) (map snd l) -> valid h c ->
    exists c' t', contexts (s_requests (run l (State h rs)) r) = c' :: t' /\
      told (s_heap (run l (State h rs))) c' = fold_left (fun d a => meant a d) (map snd l) (told h c)).
  { clear. induction l as [|[k a] l IH]; intros h rs c t HF HC HL V; [exists c, t; split; [exact HC|reflexivity]|].
    inversion HF as [|? ? F1 F2]; subst. cbn [fst] in *. cbn [map snd linear] in HL. destruct HL as [L1 L2].
    unfold run. cbn [fold_left]. unfold step at 2 4. cbn [fst snd s_heap s_requests].
    pose proof (linear_act a h (rs k) c t (length t) HC eq_refl L1 V) as A. destruct (act a h (rs k)) as [h' s'].
    destruct A as (c' & t' & A1 & A2 & A3 & A4). cbn [map fold_left snd]. rewrite <- A2. apply (IH h' (put rs k s') c' t').
    - exact F2.
    - unfold put. rewrite Nat.eqb_refl. exact A1.
    - rewrite A4. exact L2.
    - exact A3. }
  destruct (S (of_request r l) [] (s_requests (fresh base)) (Ctx (base r) None) []) as (c & t & H1 & H2).
  - apply Forall_forall. intros x Hx. apply filter_In in Hx. apply Nat.eqb_eq. apply Hx.
  - reflexivity.
  - exact HL.
  - intros p Hp. discriminate Hp.
  - change (State [] (s_requests (fresh base))) with (fresh base) in *.
    pose proof (requests_isolated l base r) as HV. unfold view in HV. apply (f_equal fst) in HV. cbn [fst] in HV. rewrite H1 in HV. cbn [map] in HV.
    destruct (contexts (s_requests (run l (fresh base)) r)) as [|c' t'] eqn:E; [discriminate HV|]. cbn [map] in HV. injection HV as _ HV _.
    exists c', t'. split; [reflexivity|]. cbv zeta.
    assert (T : told (s_heap (run l (fresh base))) c' = fold_left (fun d a => meant a d) (map snd (of_request r l))
       (match base r with Some s => set_principal s no_detail | None => no_detail end)).
    { rewrite HV, H2. reflexivity. }
    split; [exact T|]. rewrite told_op, T. reflexivity.
Qed.
Print Assumptions newest_context_tells.

(* The principal that an event tells is the context's, whatever has happened, and no later action changes it *)
Theorem principal_told_right : forall h c s, c_pri c = Some s -> d_principal (told h c) = s.
Proof. exact told_principal. Qed.
Print Assumptions principal_told_right.
Definition pointers_valid (g : state) : Prop := forall r x, uses (s_requests g r) x -> x < length (s_heap g).
Lemma act_principal a h s : (forall x, uses s x -> x < length h) ->
  let (h', s') := act a h s in (forall x, uses s' x -> x < length h') /\ length h <= length h' /\
    forall p, p < length h -> d_principal (get h' p) = d_principal (get h p).
Proof.
  intros HU.
  assert (D : forall n c, nth_ctx s n = Some c -> let (h', p) := context_detail h c in p < length h' /\ length h <= length h' /\ forall q, q < length h -> get h' q = get h q).
  { intros n c Hc. assert (V : valid h c) by (intros p Hp; apply HU; eapply nth_ctx_uses; eassumption).
    pose proof (detail_cases h c V) as C. destruct (context_detail h c) as [h' p]. destruct C as [(-> & E & L)|(d & -> & ->)]; [auto|].
    rewrite app_length. cbn [length]. split; [lia|]. split; [lia|]. intros. apply get_app. assumption. }
  assert (N : (forall x, uses s x -> x < length h) /\ length h <= length h /\ forall p, p < length h -> d_principal (get h p) = d_principal (get h p)) by auto.
  assert (E : forall f n, (forall d, d_principal (f d) = d_principal d) -> let (h', s') := derives (derive f) n h s in
     (forall x, uses s' x -> x < length h') /\ length h <= length h' /\ forall p, p < length h -> d_principal (get h' p) = d_principal (get h p)).
  { intros f n Hf. unfold derives. destruct (nth_ctx s n) as [c|] eqn:Hc; [|exact N]. specialize (D n c Hc). unfold derive. destruct (context_detail h c) as [h' p].
    destruct D as (D1 & D2 & D3). rewrite length_update. split; [|split; [exact D2|]].
    - intros x [Hx|(c' & [<-|Hc'] & Hx)]; cbn [contexts events c_detail] in *; [apply (Nat.lt_le_trans _ (length h)); [apply HU; left; exact Hx|exact D2]|injection Hx as <-; exact D1|].
      apply (Nat.lt_le_trans _ (length h)); [|exact D2]. apply HU. right. eauto.
    - intros q Hq. rewrite get_update. destruct (_ && _); [rewrite Hf|]; rewrite D3 by exact Hq; reflexivity. }
  destruct a as [n v|n r0 s0|n v|n|n s0|n]; cbn [act]; try (apply E; reflexivity).
  - unfold derives. destruct (nth_ctx s n) as [c|] eqn:Hc; [|exact N]. cbn [with_principal]. split; [|split; [lia|reflexivity]].
    intros x [Hx|(c' & [<-|Hc'] & Hx)]; cbn [contexts events c_detail] in *; apply HU; [left; exact Hx|eapply nth_ctx_uses; eassumption|right; eauto].
  - destruct (nth_ctx s n) as [c|] eqn:Hc; [|exact N]. specialize (D n c Hc). destruct (context_detail h c) as [h' p]. destruct D as (D1 & D2 & D3).
    split; [|split; [exact D2|intros q Hq; rewrite D3 by exact Hq; reflexivity]].
    intros x [[<-|Hx]|(c' & Hc' & Hx)]; cbn [contexts events c_detail] in *; [exact D1| |]; (apply (Nat.lt_le_trans _ (length h)); [apply HU; unfold uses; eauto|exact D2]).
Qed.
Theorem event_principal_kept : forall l g r n p, pointers_valid g -> nth_error (rev (events (s_requests g r))) n = Some p ->
  nth_error (rev (events (s_requests (run l g) r))) n = Some p /\ d_principal (get (s_heap (run l g)) p) = d_principal (get (s_heap g) p).
Proof.
  assert (EV : forall a h s, exists t, events (snd (act a h s)) = t ++ events s).
  { intros a h s. destruct a; cbn [act]; unfold derives; destruct (nth_ctx s n) as [c|]; try (exists []; reflexivity);
      unfold with_iface, with_request_addr, with_op, detached, derive, with_principal; try destruct (context_detail h c) as [h' p]; cbn [snd events];
      first [exists []; reflexivity | exists [p]; reflexivity]. }
  induction l as [|[k a] l IH]; intros g r n p HV HN; [auto|].
  unfold run. cbn [fold_left]. change (fold_left (fun g x => step x g) l (step (k, a) g)) with (run l (step (k, a) g)).
  pose proof (act_principal a (s_heap g) (s_requests g k) (HV k)) as A. pose proof (EV a (s_heap g) (s_requests g k)) as (t & Et).
  assert (ST : step (k, a) g = State (fst (act a (s_heap g) (s_requests g k))) (put (s_requests g) k (snd (act a (s_heap g) (s_requests g k))))).
  { unfold step. cbn [fst snd]. destruct (act a (s_heap g) (s_requests g k)). reflexivity. }
  destruct (act a (s_heap g) (s_requests g k)) as [h' s']. cbn [fst snd] in *. destruct A as (A1 & A2 & A3).
  assert (HV' : pointers_valid (step (k, a) g)).
  { rewrite ST. intros q x. cbn [s_requests s_heap]. unfold put. destruct (Nat.eqb q k); [apply A1|]. intros U. apply (Nat.lt_le_trans _ (length (s_heap g))); [apply (HV q x U)|exact A2]. }
  assert (HN' : nth_error (rev (events (s_requests (step (k, a) g) r))) n = Some p).
  { rewrite ST. cbn [s_requests]. unfold put. destruct (Nat.eqb_spec r k) as [->|]; [|exact HN]. rewrite Et, rev_app_distr. apply nth_error_app_some. exact HN. }
  destruct (IH _ _ _ _ HV' HN') as [I1 I2]. split; [exact I1|]. rewrite I2, ST. cbn [s_heap]. apply A3.
  apply (HV r). left. apply in_rev. eapply nth_error_In. exact HN.
Qed.
Print Assumptions event_principal_kept.

(** ** What is not so *)

(* A derived context changes its parent, and events that have been reported: the interface access event (handler.go:149-154) comes to have the
   operation, whatever it is, and the request's context (and earlier events) loses the address when its instance is started (server.go:1165). *)
Theorem earlier_context_kept_refuted : forall req addr op,
  let start := [(0, WithRequestAddr 0 req addr); (0, Report 1); (0, WithOp 1 op)] in
  let g := run start (fresh (fun _ => None)) in let g' := run (start ++ [(0, Detached 2)]) (fresh (fun _ => None)) in
  snd (view (run (firstn 2 start) (fresh (fun _ => None))) 0) = [Detail 0 req addr 0 ""] /\
  snd (view g 0) = [Detail 0 req addr op ""] /\
  nth_error (fst (view g 0)) 0 = Some (None, Detail 0 req addr op "") /\
  nth_error (fst (view g' 0)) 1 = Some (None, Detail 0 req "" op "").
Proof. intros. repeat split. Qed.
Print Assumptions earlier_context_kept_refuted.

(* Requests whose contexts have a common ancestor with details (ContextWithIface) tell each other's: the operation which an
   authorizer would be told of the first request, after its principal has been set, is the second request's, and so are
   the number and address that are reported. *)
Theorem common_context_refuted : forall d op1 op2 a1 a2 pri,
  let g := run [(0, WithRequestAddr 0 1 a1); (0, WithOp 1 op1); (0, WithPrincipal 2 pri);
                (1, WithRequestAddr 0 2 a2); (1, WithOp 1 op2)] (common d) in
  exists c t, contexts (s_requests g 0) = c :: t /\ context_op (s_heap g) c = op2 /\
    told (s_heap g) c = Detail (d_iface d) 2 a2 op2 pri.
Proof.
  intros d op1 op2 a1 a2 pri. cbv zeta. do 2 eexists. split; [reflexivity|]. split; [reflexivity|].
  change (told (s_heap (run [(0, WithRequestAddr 0 1 a1); (0, WithOp 1 op1); (0, WithPrincipal 2 pri); (1, WithRequestAddr 0 2 a2); (1, WithOp 1 op2)] (common d)))
            (Ctx (Some pri) (c_detail (Ctx None (Some 0)))) = Detail (d_iface d) 2 a2 op2 pri).
  rewrite principal_told. reflexivity.
Qed.
Print Assumptions common_context_refuted.

(* Two requests' actions, mixed *)
Definition mixed : list (nat * action) :=
  [(0, WithRequestAddr 0 7 "10.0.0.1"); (1, WithRequestAddr 0 8 "10.0.0.2"); (0, WithOp 1 3); (1, Report 1); (1, WithOp 1 5);
   (0, WithPrincipal 2 "alice"); (0, Report 3); (0, Detached 3); (1, WithPrincipal 2 "bob")].
Example mixed_requests : linear 0 (map snd (of_request 0 mixed)) /\ linear 0 (map snd (of_request 1 mixed)) /\
  pointers_valid (run mixed (fresh (fun _ => None))) /\
  option_map snd (nth_error (fst (view (run mixed (fresh (fun _ => None))) 0)) 0) = Some (Detail 0 7 "" 3 "alice") /\
  option_map snd (nth_error (fst (view (run mixed (fresh (fun _ => None))) 1)) 0) = Some (Detail 0 8 "10.0.0.2" 5 "bob").
Proof.
  split; [cbn; repeat split|]. split; [cbn; repeat split|]. split; [|split; reflexivity].
  intros r x [H|(c & H & Hc)].
  - destruct r as [|[|r]]; cbn in H; repeat (destruct H as [<-|H]; [cbn; lia|]); destruct H.
  - destruct r as [|[|r]]; cbn in H; repeat (destruct H as [<-|H]; [cbn in Hc; try discriminate Hc; injection Hc as <-; cbn; lia|]); destruct H.
Qed.
