(* ListLemmas.v: list lemmas shared by later proof files. *)
From Verif Require Import BaseLemmas.

Lemma nth_firstn_lt {A} (l : list A) n i d : (i < n)%nat -> nth i (firstn n l) d = nth i l d.
Proof. revert n i. induction l as [|x t IH]; intros [|n] [|i] L; cbn; try lia; try reflexivity. apply IH. lia. Qed.
Lemma nth_skipn_add {A} (l : list A) n i d : nth i (skipn n l) d = nth (n + i) l d.
Proof. revert n. induction l as [|x t IH]; intros [|n]; cbn; try reflexivity; [destruct i; reflexivity|]. apply IH. Qed.
Lemma firstn_In {A} (l : list A) n x : In x (firstn n l) -> In x l.
Proof. revert n. induction l as [|y t IH]; intros [|n]; cbn; try tauto. intros [H|H]; [auto|right; eauto]. Qed.
Lemma skipn_In {A} (l : list A) n x : In x (skipn n l) -> In x l.
Proof. revert n. induction l as [|y t IH]; intros [|n]; cbn; try tauto. intros H; right; eauto. Qed.
