(* Context.v: model of server/context.go: the details of a request that contexts carry.  The details are objects in a heap; contexts
   and reported events have pointers to them. *)
From Coq Require Export String ZArith List Bool.
Export ListNotations.
Local Open Scope Z_scope.
Local Open Scope list_scope.

(* server/detail/detail.proto:43-49 Context (interface and operation types as numbers) *)
Record detail := Detail { d_iface : Z; d_req : Z; d_addr : string; d_op : Z; d_principal : string }.
Definition no_detail : detail := Detail 0 0 "" 0 "".
Definition set_iface (v : Z) (d : detail) : detail := Detail v (d_req d) (d_addr d) (d_op d) (d_principal d).
Definition set_request (r : Z) (a : string) (d : detail) : detail := Detail (d_iface d) r a (d_op d) (d_principal d).
Definition set_addr (a : string) (d : detail) : detail := Detail (d_iface d) (d_req d) a (d_op d) (d_principal d).
Definition set_op (v : Z) (d : detail) : detail := Detail (d_iface d) (d_req d) (d_addr d) v (d_principal d).
Definition set_principal (s : string) (d : detail) : detail := Detail (d_iface d) (d_req d) (d_addr d) (d_op d) s.

Definition heap := list detail.
Definition get (h : heap) (p : nat) : detail := nth p h no_detail.
Fixpoint update (h : heap) (p : nat) (f : detail -> detail) : heap :=
  match h, p with
  | [], _ => []
  | d :: t, O => f d :: t
  | d :: t, S p => d :: update t p f
  end.
Definition alloc (h : heap) (d : detail) : heap * nat := (h ++ [d], length h).

(* A context: the values of the two keys that matter here (context.go:14, principalid.go:81): the principal's
   string, and a pointer *)
Record ctx := Ctx { c_pri : option string; c_detail : option nat }.

(* context.go:43-63 ContextDetail *)
Definition context_detail (h : heap) (c : ctx) : heap * nat :=
  match c_detail c with
  | Some p =>
      match c_pri c with
      | Some s => if negb (String.eqb (d_principal (get h p)) s) then alloc h (set_principal s (get h p)) else (h, p)
      | None => (h, p)
      end
  | None => alloc h (match c_pri c with Some s => set_principal s no_detail | None => no_detail end)
  end.
(* context.go:16-41: the four functions have the same form *)
Definition derive (f : detail -> detail) (h : heap) (c : ctx) : heap * ctx :=
  let (h, p) := context_detail h c in (update h p f, Ctx (c_pri c) (Some p)).
Definition with_iface (v : Z) := derive (set_iface v).
Definition with_request_addr (r : Z) (a : string) := derive (set_request r a).
Definition with_op (v : Z) := derive (set_op v).
Definition detached := derive (set_addr "").
(* principalid.go:83-85 ContextWithID *)
Definition with_principal (s : string) (h : heap) (c : ctx) : heap * ctx := (h, Ctx (Some s) (c_detail c)).
(* context.go:66-71 ContextOp *)
Definition context_op (h : heap) (c : ctx) : Z := match c_detail c with Some p => d_op (get h p) | None => 0 end.

(** ** Requests *)

(* What a request's handling does with the n:th of its contexts; Report is an event with ContextDetail(ctx) (e.g. handler.go:152) *)
Inductive action :=
| WithIface (n : nat) (v : Z)
| WithRequestAddr (n : nat) (r : Z) (a : string)
| WithOp (n : nat) (v : Z)
| Detached (n : nat)
| WithPrincipal (n : nat) (s : string)
| Report (n : nat).
(* A request's contexts (the newest first: numbered from the oldest) and events' pointers (newest first) *)
Record session := Session { contexts : list ctx; events : list nat }.
Definition nth_ctx (s : session) (n : nat) : option ctx := nth_error (rev (contexts s)) n.
Definition derives (g : heap -> ctx -> heap * ctx) (n : nat) (h : heap) (s : session) : heap * session :=
  match nth_ctx s n with
  | Some c => let (h, c) := g h c in (h, Session (c :: contexts s) (events s))
  | None => (h, s)
  end.
Definition act (a : action) (h : heap) (s : session) : heap * session :=
  match a with
  | WithIface n v => derives (with_iface v) n h s
  | WithRequestAddr n r a => derives (with_request_addr r a) n h s
  | WithOp n v => derives (with_op v) n h s
  | Detached n => derives detached n h s
  | WithPrincipal n p => derives (with_principal p) n h s
  | Report n => match nth_ctx s n with
                | Some c => let (h, p) := context_detail h c in (h, Session (contexts s) (p :: events s))
                | None => (h, s)
                end
  end.
(* Requests (by number) in one server, and their actions in some order *)
Record state := State { s_heap : heap; s_requests : nat -> session }.
Definition put {A} (f : nat -> A) (k : nat) (v : A) : nat -> A := fun x => if Nat.eqb x k then v else f x.
Definition step (x : nat * action) (g : state) : state :=
  let (h, s) := act (snd x) (s_heap g) (s_requests g (fst x)) in State h (put (s_requests g) (fst x) s).
Definition run (l : list (nat * action)) (g : state) : state := fold_left (fun g x => step x g) l g.
