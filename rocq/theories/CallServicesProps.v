(* CallServicesProps.v: property C22 (calls of the catalog and identity services
   are answered exactly once, across suspension). *)
From Verif Require Import BaseLemmas Registry CallServices.

Definition opt {A} (o : option A) : list A := match o with Some x => [x] | None => [] end.

(* A run in which no call is made after the service has given up answering one
   because of cancellation. *)
Fixpoint orderly (gave_up : bool) (es : list cevent) : Prop :=
  match es with
  | [] => True
  | CGiveUp :: t => orderly true t
  | CCall _ :: t => gave_up = false /\ orderly gave_up t
  | _ :: t => orderly gave_up t
  end.

Definition CInv (p0 : option Z) (r : run) : Prop := opt p0 ++ calls r = replies r ++ opt (pend r).

Lemma orderly_inv p0 es : forall g r r', orderly g es -> steps r es = Some r' ->
  CInv p0 r -> (g = false -> blocked r = match pend r with Some _ => true | None => false end) -> CInv p0 r'.
Proof.
  induction es as [|e t IH]; intros g r r' O S I B; cbn [steps] in S; [now injection S as <-|].
  destruct (step r e) as [r1|] eqn:E; [|discriminate].
  destruct e; cbn [step] in E; cbn [orderly] in O.
  - destruct O as [-> O]. specialize (B eq_refl). destruct (loop_on r && negb (blocked r) && negb (stopped r)) eqn:Q; [|discriminate].
    injection E as <-. apply (IH _ _ _ O S); unfold CInv in *; cbn [calls replies pend blocked]; [|auto].
    destruct (pend r); [rewrite B in Q; destruct (loop_on r); discriminate|]. cbn [opt] in *. rewrite app_nil_r in I. now rewrite app_assoc, I.
  - destruct (loop_on r && blocked r); [|discriminate]. destruct (pend r) as [k|] eqn:P; [|discriminate]. injection E as <-.
    apply (IH _ _ _ O S); unfold CInv in *; cbn [calls replies pend blocked]; [|auto]. rewrite P in I. cbn [opt] in *. now rewrite app_nil_r.
  - injection E as <-. now apply (IH _ _ _ O S).
  - destruct (blocked r && cancelled r); [|discriminate]. injection E as <-. apply (IH _ _ _ O S); [assumption|discriminate].
  - destruct (loop_on r); [|discriminate]. injection E as <-. now apply (IH _ _ _ O S).
  - destruct (negb (loop_on r) && negb (blocked r) && negb (stopped r)); [|discriminate]. injection E as <-. now apply (IH _ _ _ O S).
Qed.

(* C22 within one run: the calls to be answered (the one restored from the
   snapshot and those made since) are, in order, those answered, followed by
   the pending one. *)
Theorem calls_answered_once : forall s snapshot es r,
  orderly false es -> steps (start s snapshot) es = Some r ->
  opt (restore s snapshot) ++ calls r = replies r ++ opt (pend r).
Proof.
  intros s snapshot es r O S. apply (orderly_inv _ es false _ _ O S); [|reflexivity].
  unfold CInv, start; cbn. destruct (restore s snapshot); reflexivity.
Qed.
Print Assumptions calls_answered_once.

(* C22: the pending call survives being saved.  (The calls of the catalog are 1
   and 2.) *)
Theorem pending_call_saved : forall s content,
  restore s (save s (Some (call_of s content))) = Some (call_of s content) /\ restore s (save s None) = None.
Proof.
  intros [|] content; cbn; split; try reflexivity. unfold call_of. now destruct (beq content json).
Qed.
Print Assumptions pending_call_saved.

(* The calls of a run are calls of the service. *)
Fixpoint valid_calls (s : svc) (es : list cevent) : Prop :=
  match es with
  | [] => True
  | CCall k :: t => (exists content, k = call_of s content) /\ valid_calls s t
  | _ :: t => valid_calls s t
  end.
Lemma valid_pend s es : forall r r', valid_calls s es -> steps r es = Some r' ->
  (pend r = None \/ exists c, pend r = Some (call_of s c)) -> (pend r' = None \/ exists c, pend r' = Some (call_of s c)).
Proof.
  induction es as [|e t IH]; intros r r' V S P; cbn [steps] in S; [now injection S as <-|].
  destruct (step r e) as [r1|] eqn:E; [|discriminate]. destruct e; cbn [step] in E; cbn [valid_calls] in V.
  - destruct V as [[c ->] V]. destruct (loop_on r && _ && _); [|discriminate]. injection E as <-. apply (IH _ _ V S). right. now exists c.
  - destruct (loop_on r && blocked r); [|discriminate]. destruct (pend r); [|discriminate]. injection E as <-. apply (IH _ _ V S). now left.
  - injection E as <-. now apply (IH _ _ V S).
  - destruct (blocked r && cancelled r); [|discriminate]. injection E as <-. now apply (IH _ _ V S).
  - destruct (loop_on r); [|discriminate]. injection E as <-. now apply (IH _ _ V S).
  - destruct (negb (loop_on r) && _ && _); [|discriminate]. injection E as <-. now apply (IH _ _ V S).
Qed.

(* C22 across one suspension and resumption of a program, at any point: all
   calls made before and after are answered once, in order, except the one
   which is still pending. *)
Theorem calls_answered_once_resumed_partial : forall s es1 r1 es2 r2,
  valid_calls s es1 -> orderly false es1 -> steps (start s []) es1 = Some r1 -> stopped r1 = true ->
  orderly false es2 -> steps (start s (saved_state [] (save s (pend r1)))) es2 = Some r2 ->
  calls r1 ++ calls r2 = replies r1 ++ replies r2 ++ opt (pend r2).
Proof.
  intros s es1 r1 es2 r2 V O1 S1 _ O2 S2.
  pose proof (calls_answered_once _ _ _ _ O1 S1) as A1. pose proof (calls_answered_once _ _ _ _ O2 S2) as A2.
  destruct (valid_pend s es1 _ _ V S1) as [P|[c P]]; [left; now destruct s| |].
  - rewrite P in *. replace (restore s (saved_state [] (save s None))) with (@None Z) in A2 by now destruct s.
    cbn [opt] in *. replace (restore s []) with (@None Z) in A1 by now destruct s. cbn [opt app] in *.
    rewrite app_nil_r in A1. now rewrite A1, A2.
  - rewrite P in *. replace (restore s (saved_state [] (save s (Some (call_of s c))))) with (Some (call_of s c)) in A2
      by (destruct s; [|reflexivity]; unfold call_of; now destruct (beq c json)).
    replace (restore s []) with (@None Z) in A1 by now destruct s. cbn [opt app] in *. rewrite A1, <- !app_assoc. cbn [app]. now rewrite A2.
Qed.
Print Assumptions calls_answered_once_resumed_partial.

Example calls_case : exists r1 r2,
  steps (start Catalog_ []) [CCall 1; CTake; CCall 2; CCancel; CEnd; CGiveUp; CStop] = Some r1 /\ stopped r1 = true /\ pend r1 = Some 2 /\
  steps (start Catalog_ (saved_state [] (save Catalog_ (pend r1)))) [CTake; CCall 1; CTake] = Some r2 /\ replies r1 ++ replies r2 = [1; 2; 1].
Proof. eexists. eexists. repeat (split; [vm_compute; reflexivity|]). vm_compute; reflexivity. Qed.

(* C22 refuted for two suspensions: a call is pending at the first suspension
   and answered after it; the second suspension saves it again, and it is
   answered a second time. *)
Theorem call_answered_twice_refuted : exists s r1 r2 r3,
  steps (start s []) [CCall 1; CCancel; CEnd; CGiveUp; CStop] = Some r1 /\ stopped r1 = true /\
  let b1 := saved_state [] (save s (pend r1)) in
  steps (start s b1) [CTake; CEnd; CStop] = Some r2 /\ stopped r2 = true /\
  let b2 := saved_state b1 (save s (pend r2)) in
  steps (start s b2) [CTake] = Some r3 /\
  calls r1 ++ calls r2 ++ calls r3 = [1] /\ replies r1 ++ replies r2 ++ replies r3 = [1; 1].
Proof. exists Catalog_. do 3 eexists. cbv zeta. repeat (split; [vm_compute; reflexivity|]). vm_compute; reflexivity. Qed.
Print Assumptions call_answered_twice_refuted.

(* The same with the identity service. *)
Theorem call_answered_twice_identity_refuted : exists r1 r2 r3,
  steps (start Identity_ []) [CCall 2; CCancel; CEnd; CGiveUp; CStop] = Some r1 /\
  let b1 := saved_state [] (save Identity_ (pend r1)) in
  steps (start Identity_ b1) [CTake; CEnd; CStop] = Some r2 /\
  steps (start Identity_ (saved_state b1 (save Identity_ (pend r2)))) [CTake] = Some r3 /\
  calls r1 ++ calls r2 ++ calls r3 = [2] /\ replies r1 ++ replies r2 ++ replies r3 = [2; 2].
Proof. do 3 eexists. cbv zeta. repeat (split; [vm_compute; reflexivity|]). vm_compute; reflexivity. Qed.
Print Assumptions call_answered_twice_identity_refuted.

(* C22 refuted: a call made after cancellation replaces the pending one, which
   is never answered. *)
Theorem call_lost_refuted : exists s r,
  steps (start s []) [CCall 1; CCancel; CGiveUp; CCall 2; CTake; CEnd; CStop] = Some r /\ stopped r = true /\
  calls r = [1; 2] /\ replies r = [2] /\ pend r = None.
Proof. exists Catalog_. eexists. repeat (split; [vm_compute; reflexivity|]). vm_compute; reflexivity. Qed.
Print Assumptions call_lost_refuted.

(* Refuted: suspending a program terminates.  If a call is being answered when
   the I/O loop returns, then serve is blocked for as long as the context is not
   cancelled (suspending does not cancel it), and the suspension waits for it:
   no other step is possible, ever. *)
Theorem suspend_during_call_refuted : forall s k, exists r,
  steps (start s []) [CCall k; CEnd] = Some r /\
  forall es r', ~ In CCancel es -> steps r es = Some r' -> es = [] /\ stopped r' = false.
Proof.
  intros s k. assert (R : restore s [] = None) by now destruct s.
  eexists. split; [unfold start; rewrite R; reflexivity|]. intros es r' N S.
  destruct es as [|e t]; [injection S as <-; split; reflexivity|]. cbn [steps] in S.
  destruct e; cbn in S; try discriminate. exfalso. apply N. now left.
Qed.
Print Assumptions suspend_during_call_refuted.

(* What does hold: if the context is cancelled, or no call is being answered,
   the service can stop. *)
Theorem suspend_stops_partial : forall s snapshot es r,
  steps (start s snapshot) es = Some r -> loop_on r = false -> cancelled r = true \/ blocked r = false ->
  stopped r = true \/ exists es' r', steps r es' = Some r' /\ stopped r' = true.
Proof.
  intros s snapshot es r _ L C. destruct (stopped r) eqn:S; [now left|right].
  destruct (blocked r) eqn:B.
  - destruct C as [C|C]; [|discriminate]. exists [CGiveUp; CStop]. eexists. cbn [steps step]. rewrite B, C. cbn. rewrite L, S. cbn. split; reflexivity.
  - exists [CStop]. eexists. cbn [steps step]. rewrite L, B, S. cbn. split; reflexivity.
Qed.
Print Assumptions suspend_stops_partial.
