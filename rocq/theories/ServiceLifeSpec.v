(* ServiceLifeSpec.v: the life of a service instance. *)
From Verif Require Export ServiceLife.

Inductive life := Nothing | Created | Readied | Started | Broken | Stopped | Wrong.
(* Broken: a call failed, and it may only be stopped *)
Definition live (s : life) (x : call) : life :=
  match s, c_kind x, c_ok x with
  | Nothing, Create, true => Created
  | Nothing, Create, false => Nothing
  | Created, Ready, true => Readied
  | Readied, Start, true => Started
  | Started, Handle, true => Started
  | Created, Ready, false | Readied, Start, false | Started, Handle, false => Broken
  | (Created | Readied | Started | Broken), Stop, _ => Stopped
  | _, _, _ => Wrong
  end.
(* The calls for one service code *)
Definition life_of (c : nat) (t : list call) : life := fold_left live (filter (fun x => Nat.eqb (c_code x) c) t) Nothing.
