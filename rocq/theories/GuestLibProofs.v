(* GuestLibProofs.v: proofs about the guest library. *)
From Verif Require Import GuestLibSpec GuestLib BaseLemmas.

(** ** Evaluation *)
Lemma eval_Const k v s : eval k (Const v) s = (s, Next (Some v)). Proof. destruct k; reflexivity. Qed.
Lemma eval_Get k x s : eval k (Get x) s = match nth_error (loc s) x with Some v => (s, Next (Some v)) | None => (s, Wrong) end.
Proof. destruct k; reflexivity. Qed.
Definition setl (x : nat) (v : Z) (s : st) : st := set_loc s (upd x v (loc s)).
Lemma eval_Set k x e s : eval k (Set_ x e) s = andv (eval k e s) (fun v s => (setl x v s, Next None)).
Proof. destruct k; reflexivity. Qed.
Lemma setl_St x v m p l w : setl x v (St m p l w) = St m p (upd x v l) w. Proof. reflexivity. Qed.
Lemma upd_O v h t : upd 0 v (h :: t) = v :: t. Proof. reflexivity. Qed.
Lemma upd_S x v h t : upd (S x) v (h :: t) = h :: upd x v t. Proof. reflexivity. Qed.
Lemma eval_Bin k o a b s : eval k (Bin o a b) s = andv (eval k a s) (fun x s => andv (eval k b s) (fun y s => (s, Next (Some (binop o x y))))).
Proof. destruct k; reflexivity. Qed.
Lemma eval_Eqz k a s : eval k (Eqz a) s = andv (eval k a s) (fun x s => (s, Next (Some (bool_z (x =? 0))))).
Proof. destruct k; reflexivity. Qed.
Lemma eval_Wrap k a s : eval k (Wrap a) s = andv (eval k a s) (fun x s => (s, Next (Some (u32 x)))).
Proof. destruct k; reflexivity. Qed.
Lemma eval_Load k n off a s : eval k (Load n off a) s = andv (eval k a s) (fun x s => load n (x + off) s).
Proof. destruct k; reflexivity. Qed.
Lemma eval_Store k n off a v s : eval k (Store n off a v) s = andv (eval k a s) (fun x s => andv (eval k v s) (fun y s => store n (x + off) y s)).
Proof. destruct k; reflexivity. Qed.
Lemma eval_Call0 k f s : eval k (Call0 f) s = call_rt f [] s. Proof. destruct k; reflexivity. Qed.
Lemma eval_Call1 k f a s : eval k (Call1 f a) s = andv (eval k a s) (fun x s => call_rt f [x] s). Proof. destruct k; reflexivity. Qed.
Lemma eval_Call2 k f a b s : eval k (Call2 f a b) s = andv (eval k a s) (fun x s => andv (eval k b s) (fun y s => call_rt f [x; y] s)).
Proof. destruct k; reflexivity. Qed.
Lemma eval_Block k b s : eval k (Block b) s = leave (exec (eval k) b s). Proof. destruct k; reflexivity. Qed.
Lemma eval_If k c t e s : eval k (If c t e) s = andv (eval k c s) (fun x s => leave (if x =? 0 then exec (eval k) e s else exec (eval k) t s)).
Proof. destruct k; reflexivity. Qed.
Lemma eval_Br k n s : eval k (Br n) s = (s, Brk n). Proof. destruct k; reflexivity. Qed.
Lemma eval_BrIf k n c s : eval k (BrIf n c) s = andv (eval k c s) (fun x s => (s, if x =? 0 then Next None else Brk n)).
Proof. destruct k; reflexivity. Qed.
Lemma eval_Return k e s : eval k (Return e) s = andv (eval k e s) (fun x s => (s, Ret (Some x))). Proof. destruct k; reflexivity. Qed.
Lemma eval_Drop k e s : eval k (Drop e) s = andv (eval k e s) (fun _ s => (s, Next None)). Proof. destruct k; reflexivity. Qed.
Lemma eval_Loop k b s : eval k (Loop b) s =
  match exec (eval k) b s with
  | (s', Brk O) => match k with O => (s', Fuel) | S k' => eval k' (Loop b) s' end
  | (s', Brk (S n)) => (s', Brk n)
  | r => r
  end.
Proof. destruct k; reflexivity. Qed.
Lemma exec_one ev i s : exec ev [i] s = ev i s. Proof. reflexivity. Qed.
Definition thn (r : st * out) (f : st -> st * out) : st * out := match r with (s', Next _) => f s' | r => r end.
Lemma exec_cons ev i j t s : exec ev (i :: j :: t) s = thn (ev i s) (exec ev (j :: t)).
Proof. cbn [exec]. unfold thn. destruct (ev i s) as [? []]; reflexivity. Qed.
Lemma exec_nil ev s : exec ev [] s = (s, Next None). Proof. reflexivity. Qed.
(* call sites that are never used *)
Lemma eval_reserved k s : eval k (Block [BrIf 0 (Const 1); Call0 RtNop]) s = (s, Next None).
Proof. destruct k; reflexivity. Qed.

Lemma thn_Next s v f : thn (s, Next v) f = f s. Proof. reflexivity. Qed.
Lemma thn_Brk s n f : thn (s, Brk n) f = (s, Brk n). Proof. reflexivity. Qed.
Lemma thn_Ret s n f : thn (s, Ret n) f = (s, Ret n). Proof. reflexivity. Qed.
Lemma thn_Exit s n f : thn (s, Exit n) f = (s, Exit n). Proof. reflexivity. Qed.
Lemma thn_Blocked s n f : thn (s, Blocked n) f = (s, Blocked n). Proof. reflexivity. Qed.
Lemma thn_oob s f : thn (s, out_of_bounds) f = (s, out_of_bounds). Proof. reflexivity. Qed.
Lemma andv_Next s v f : andv (s, Next (Some v)) f = f v s. Proof. reflexivity. Qed.
Lemma andv_Exit s n f : andv (s, Exit n) f = (s, Exit n). Proof. reflexivity. Qed.
Lemma andv_Blocked s n f : andv (s, Blocked n) f = (s, Blocked n). Proof. reflexivity. Qed.
Lemma andv_oob s f : andv (s, out_of_bounds) f = (s, out_of_bounds). Proof. reflexivity. Qed.
Lemma leave_Next s v : leave (s, Next v) = (s, Next v). Proof. reflexivity. Qed.
Lemma leave_Brk0 s : leave (s, Brk 0) = (s, Next None). Proof. reflexivity. Qed.
Lemma leave_BrkS s n : leave (s, Brk (S n)) = (s, Brk n). Proof. reflexivity. Qed.
Lemma leave_Ret s n : leave (s, Ret n) = (s, Ret n). Proof. reflexivity. Qed.
Lemma leave_Exit s n : leave (s, Exit n) = (s, Exit n). Proof. reflexivity. Qed.
Lemma leave_Blocked s n : leave (s, Blocked n) = (s, Blocked n). Proof. reflexivity. Qed.
Lemma leave_oob s : leave (s, out_of_bounds) = (s, out_of_bounds). Proof. reflexivity. Qed.
Lemma bool_z_eqz b : (bool_z b =? 0) = negb b. Proof. destruct b; reflexivity. Qed.
Lemma bool_z_or a b : Z.lor (bool_z a) (bool_z b) = bool_z (a || b). Proof. destruct a, b; reflexivity. Qed.
Lemma bool_z_and a b : Z.land (bool_z a) (bool_z b) = bool_z (a && b). Proof. destruct a, b; reflexivity. Qed.

#[global] Hint Rewrite eval_reserved eval_Const eval_Get eval_Set eval_Bin eval_Eqz eval_Wrap eval_Load eval_Store eval_Call0 eval_Call1
  eval_Call2 eval_Block eval_If eval_Br eval_BrIf eval_Return eval_Drop exec_nil exec_one exec_cons thn_Next thn_Brk thn_Ret thn_Exit thn_Blocked thn_oob andv_Next andv_Exit andv_Blocked andv_oob
  leave_Next leave_Brk0 leave_BrkS leave_Ret leave_Exit leave_Blocked leave_oob bool_z_eqz bool_z_or bool_z_and setl_St upd_O upd_S : wasm.
Ltac red_step := cbn beta iota delta [nth_error loc set_loc set_mem set_wd mem pages wd binop negb Z.eqb Pos.eqb].
Ltac wstep := repeat (progress (autorewrite with wasm; red_step)).
Lemma invoke_eq k f args s : invoke k f args s =
  match exec (eval k) (f_body f) (St (mem s) (pages s) (args ++ repeat 0 (f_locals f)) (wd s)) with
  | (s', Next v) => (s', Ret v)
  | (s', Brk O) => (s', Ret None)
  | r => r
  end.
Proof. reflexivity. Qed.
Ltac winit := rewrite invoke_eq; cbn [f_body f_locals repeat app].
