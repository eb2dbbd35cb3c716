(* ServiceLife.v: model of the calls that service/registry.go makes to service instances, with failures. *)
From Verif Require Export Base.

(* Calls to a service (by code): CreateInstance, Ready, Start, Handle, and Shutdown or Suspend *)
Inductive ckind := Create | Ready | Start | Handle | Stop.
(* A call and whether it succeeded *)
Record call := Call { c_kind : ckind; c_code : nat; c_ok : bool }.
(* What the calls return (by number of earlier calls), and the orders of map iterations *)
Record env := Env { answer : nat -> bool; shuffle : nat -> list nat -> list nat; has_factory : nat -> bool }.

Definition do_call (e : env) (k : ckind) (c : nat) (t : list call) : list call * bool :=
  let ok := answer e (length t) in (t ++ [Call k c ok], ok).
(* Calls until a failure *)
Fixpoint each (e : env) (k : ckind) (l : list nat) (t : list call) : list call * bool :=
  match l with
  | [] => (t, true)
  | c :: l => let '(t, ok) := do_call e k c t in if ok then each e k l t else (t, false)
  end.

(* The instances map: codes with an instance, and codes with nil *)
Record imap := Imap { i_some : list nat; i_nil : list nat }.
(* registry.go:212-234 StartServing: creation *)
Fixpoint create_all (e : env) (codes : list nat) (m : imap) (t : list call) : list call * option imap :=
  match codes with
  | [] => (t, Some m)
  | c :: codes =>
      if has_factory e c then
        let '(t, ok) := do_call e Create c t in
        if ok then create_all e codes (Imap (i_some m ++ [c]) (i_nil m)) t else (t, None)
      else create_all e codes (Imap (i_some m) (i_nil m ++ [c])) t
  end.
(* registry.go:181-256 StartServing of n services *)
Definition start_serving (e : env) (n : nat) : list call * option imap :=
  match create_all e (seq 0 n) (Imap [] []) [] with
  | (t, Some m) => let '(t, ok) := each e Ready (shuffle e (length t) (i_some m)) t in (t, if ok then Some m else None)
  | (t, None) => (t, None)
  end.

(* registry.go:305-341 serve, a packet *)
Definition serve_one (e : env) (c : nat) (m : imap) (t : list call) : list call * imap * bool :=
  if existsb (Nat.eqb c) (i_some m) then let '(t, ok) := do_call e Handle c t in (t, m, ok)
  else if existsb (Nat.eqb c) (i_nil m) then (t, m, true)
  else if has_factory e c then
    let '(t, ok) := do_call e Create c t in
    if ok then
      let m := Imap (i_some m ++ [c]) (i_nil m) in
      let '(t, ok) := do_call e Ready c t in
      if ok then
        let '(t, ok) := do_call e Start c t in
        if ok then let '(t, ok) := do_call e Handle c t in (t, m, ok) else (t, m, false)
      else (t, m, false)
    else (t, m, false)
  else (t, Imap (i_some m) (i_nil m ++ [c]), true).
Fixpoint serve_packets (e : env) (l : list nat) (m : imap) (t : list call) : list call * imap :=
  match l with
  | [] => (t, m)
  | c :: l => let '(t, m, ok) := serve_one e c m t in if ok then serve_packets e l m t else (t, m)
  end.
(* registry.go:288-344 serve *)
Definition serve (e : env) (packets : list nat) (m : imap) (t : list call) : list call * imap :=
  let '(t, ok) := each e Start (shuffle e (length t) (i_some m)) t in
  if ok then serve_packets e packets m t else (t, m).
(* registry.go:413-426 Shutdown, :429-455 Suspend: errors don't stop it *)
Fixpoint stop_all (e : env) (l : list nat) (t : list call) : list call :=
  match l with [] => t | c :: l => stop_all e l (fst (do_call e Stop c t)) end.
(* runtime/io.go:74-88: a run of a program with n restored services, which sends packets to services (by code).  The deferred
   function stops the instances after serve has given them (d.stopped). *)
Definition run_services (e : env) (n : nat) (packets : list nat) : list call * bool :=
  match start_serving e n with
  | (t, None) => (t, false)
  | (t, Some m) => let '(t, m) := serve e packets m t in (stop_all e (shuffle e (length t) (i_some m)) t, true)
  end.
