(* CredsSpec.v: what subuid(5) files mean, for C117. *)
From Verif Require Export Creds.

Definition digit (c : Z) : Prop := 48 <= c <= 57.
(* a sequence of decimal digits and its value *)
Definition numeral (s : bytes) (v : Z) : Prop :=
  s <> [] /\ Forall digit s /\ fold_left (fun a c => 10 * a + (c - 48)) s 0 = v.
(* "user:base:count" followed by a newline *)
Definition range_line (user base count : bytes) : bytes := user ++ [58] ++ base ++ [58] ++ count ++ [10].
(* a user name as in passwd(5) *)
Definition name_char (c : Z) : Prop := 32 < c < 127 /\ c <> 58.
Definition user_name (s : bytes) : Prop := s <> [] /\ Forall name_char s.
(* The file consists of lines user:base:count; this is the content *)
Fixpoint subid_file (l : list (bytes * bytes * bytes)) : bytes :=
  match l with [] => [] | (u, b, c) :: t => range_line u b c ++ subid_file t end.
(* a range that is listed for a user: the first one that is *)
Definition first_range (l : list (bytes * bytes * bytes)) (user : bytes) (base count : Z) : Prop :=
  exists pre b c post, l = pre ++ (user, b, c) :: post /\ (forall x, In x pre -> fst (fst x) <> user)
    /\ numeral b base /\ numeral c count.
(* ids of a range which may be given to a namespace: not the range's root, not a given id *)
Definition usable (base count : Z) (not : list Z) (id : Z) : Prop :=
  base < id < base + count /\ id <= 0xffffffff /\ ~ In id not.
