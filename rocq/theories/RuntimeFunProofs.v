(* RuntimeFunProofs.v: the runtime functions that don't call other code, executed. *)
From Verif Require Import RuntimeSpec AsmProofs RuntimeTimeProofs RuntimeExitProofs.
From Coq Require Import Lia ZArith Znumtheory List Bool.
Import ListNotations.
Local Open Scope Z_scope.

Ltac start H sp text :=
  open_imported H;
  match goal with s : cpu |- _ => destruct s as [[a c d b p q i j e f h k l m n o] z t pc0 base mem] end;
  match goal with Hregs : forall r, 0 <= rget r _ < _ |- _ =>
    pose proof (Hregs rax) as Ga; pose proof (Hregs rbx) as Gb end;
  regs_cbn_in;
  match goal with Hs : ?v = sp |- _ => subst v end;
  match goal with Hs : ?v = text |- _ => subst v end;
  match goal with Hs : ?v = ?x :> nat |- _ => subst v end.
(* imported for an explicit state *)
Ltac imp := constructor; regs_cbn; try reflexivity; try assumption; try (let r := fresh in intros r; match goal with Hregs : forall r, 0 <= _ < _ |- _ => pose proof (Hregs r); clear Hregs end; destruct r; regs_cbn_in; lia);
  change (2 ^ 64 - 1 - suspend_mask) with 13835058055282163710; unfold stack_limit_offset;
  change (2 ^ 47) with 140737488355328 in *; change (Z.of_nat (length runtime)) with 340; try assumption; try lia.

Lemma alu_lt_sub8 d v : 0 <= d < 9223372036854775808 -> 0 <= v < 9223372036854775808 -> alu_lt Sub 8 d v = (d <? v).
Proof.
  intros Hd Hv. unfold alu_lt, sgn. change (card 8 / 2) with 9223372036854775808.
  replace (d <? 9223372036854775808) with true by (symmetry; apply Z.ltb_lt; lia).
  replace (v <? 9223372036854775808) with true by (symmetry; apply Z.ltb_lt; lia). reflexivity.
Qed.

(** * Traps *)

Lemma trap_exits s sp text vars tid res :
  imported s sp text vars -> pc s = L_trap_handler -> rget rax (rg s) = res * 2 ^ 32 + tid -> 0 <= tid < 2 ^ 32 -> 0 <= res < 2 ^ 32 ->
  exits_with s sp text vars
    (if tid =? 0 then (if res =? 0 then 0 else 1)
     else if tid =? 4 then (if Z.odd (rget rbx (rg s)) then 102 else 104)
     else (tid + 100) mod 2 ^ 32).
Proof.
  intros H Hpc Hax Rt Rr. change (2 ^ 32) with 4294967296 in *. start H sp text.
  assert (Elow : a mod card 4 = tid).
  { subst a. unfold card. change (2 ^ (8 * 4)) with 4294967296. rewrite Z.add_comm, Z.mod_add by lia. apply Z.mod_small. lia. }
  assert (Ehigh : Z.shiftr a 32 = res).
  { rewrite Z.shiftr_div_pow2 by lia. change (2 ^ 32) with 4294967296. subst a. rewrite Z.add_comm, Z.div_add by lia. rewrite Z.div_small by lia. lia. }
  assert (Eodd : (Z.land (b mod card 4) 1 =? 0) = negb (Z.odd b)).
  { assert (E : Z.land (b mod card 4) 1 = if Z.odd b then 1 else 0).
    { change 1 with (Z.ones 1) at 1. rewrite Z.land_ones by lia. change (2 ^ 1) with 2.
      rewrite <- (Zmod_div_mod 2 (card 4)); [apply Zmod_odd|lia|reflexivity|]. exists (2 ^ 31). reflexivity. }
    rewrite E. destruct (Z.odd b); reflexivity. }
  clear Hax.
  destruct (tid =? 0) eqn:E0; [|destruct (tid =? 4) eqn:E4].
  - destruct (res =? 0) eqn:Er.
    + eapply exits_via; [run_to 291%nat ltac:(rewrite ?Elow, ?Z.land_diag, ?E0, ?Ehigh, ?Er); apply ct_refl|reflexivity|apply exits].
      * apply Z.eqb_eq in Er. subst res. imp.
      * reflexivity.
      * regs_cbn. apply Z.eqb_eq in Er. exact Er.
    + eapply exits_via; [run_to 291%nat ltac:(rewrite ?Elow, ?Z.land_diag, ?E0, ?Ehigh, ?Er); apply ct_refl|reflexivity|apply exits].
      * imp.
      * reflexivity.
      * regs_cbn. reflexivity.
  - destruct (Z.odd b) eqn:Eo.
    + eapply exits_via; [run_to 291%nat ltac:(rewrite ?Elow, ?Z.land_diag, ?E0, ?E4, ?Eodd); apply ct_refl|reflexivity|apply exits].
      * imp.
      * reflexivity.
      * reflexivity.
    + eapply exits_via; [run_to 291%nat ltac:(rewrite ?Elow, ?Z.land_diag, ?E0, ?E4, ?Eodd); apply ct_refl|reflexivity|apply exits].
      * imp.
      * reflexivity.
      * reflexivity.
  - eapply exits_via; [run_to 291%nat ltac:(rewrite ?Elow, ?Z.land_diag, ?E0, ?E4, ?Eodd); apply ct_refl|reflexivity|apply exits].
    + pose proof (card4_range (tid + 100)) as Rx. change (2 ^ 32) with 4294967296 in Rx. imp.
    + reflexivity.
    + reflexivity.
Qed.
