(* RegistrySpec.v: vocabulary of the statements about service discovery. *)
From Verif Require Export Base Registry.

(* A discovery request: 8 byte header with domain call, the number of names,
   and each name preceded by its length; anything may follow. *)
Definition header_ok (h : bytes) : Prop := length h = 8%nat /\ nth 6 h 0 mod 16 = 0.
Definition name_ok (n : bytes) : Prop := 1 <= len n <= 127.
Definition encoded (names : list bytes) : bytes := concat (map (fun n => len n :: n) names).
Definition request (h : bytes) (count : Z) (names : list bytes) (rest : bytes) : bytes :=
  h ++ le 2 count ++ encoded names ++ rest.

(* The reply: size, code -1, domain call, index 0, number of services, one flag
   byte for each service. *)
Definition reply (flags : list Z) : bytes :=
  le 4 (10 + len flags) ++ [255; 255; 0; 0] ++ le 2 (len flags) ++ flags.

(* The factories that the names stand for. *)
Definition found (look : bytes -> option factory) (n : bytes) : option factory :=
  match look n with Some f => if fdisc f then Some f else None | None => None end.
Fixpoint found_ids (look : bytes -> option factory) (names : list bytes) : list nat :=
  match names with
  | [] => []
  | n :: t => match found look n with Some f => fid f :: found_ids look t | None => found_ids look t end
  end.

(* The factories in use by a program's services. *)
Fixpoint used (l : list dsvc) : list nat :=
  match l with [] => [] | s :: t => match sfac s with Some f => fid f :: used t | None => used t end end.

(* None of the names stands for a service which the program already has or
   which occurs twice in the request. *)
Definition fresh (look : bytes -> option factory) (d : disc) (names : list bytes) : Prop :=
  NoDup (found_ids look names) /\ forall i, In i (found_ids look names) -> ~ In i (used (services d)).
