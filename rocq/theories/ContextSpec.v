(* ContextSpec.v: what contexts and events say. *)
From Verif Require Export Context.

(* The details that would be reported of a context now *)
Definition told (h : heap) (c : ctx) : detail := let (h, p) := context_detail h c in get h p.
(* Everything that a request's contexts and events say *)
Definition view (g : state) (r : nat) : list (option string * detail) * list detail :=
  (map (fun c => (c_pri c, told (s_heap g) c)) (contexts (s_requests g r)), map (get (s_heap g)) (events (s_requests g r))).
(* Requests which each begin with a context of their own, without details *)
Definition fresh (base : nat -> option string) : state := State [] (fun r => Session [Ctx (base r) None] []).
(* The contexts of requests begin with a common one, such as net/http's BaseContext *)
Definition common (d : detail) : state := State [d] (fun r => Session [Ctx None (Some 0)] []).

(* What an action means for the details *)
Definition meant (a : action) (d : detail) : detail :=
  match a with
  | WithIface _ v => set_iface v d
  | WithRequestAddr _ r s => set_request r s d
  | WithOp _ v => set_op v d
  | Detached _ => set_addr "" d
  | WithPrincipal _ s => set_principal s d
  | Report _ => d
  end.
Definition target (a : action) : nat :=
  match a with WithIface n _ | WithRequestAddr n _ _ | WithOp n _ | Detached n | WithPrincipal n _ | Report n => n end.
(* Every action of the request is about the newest context *)
Fixpoint linear (n : nat) (l : list action) : Prop :=
  match l with
  | [] => True
  | a :: t => target a = n /\ linear (match a with Report _ => n | _ => S n end) t
  end.
Definition of_request (r : nat) (l : list (nat * action)) : list (nat * action) := filter (fun x => Nat.eqb (fst x) r) l.
