(* AuthSpec.v: what it means for an Authorization header to prove a principal, stated without
   the code's helpers: as decompositions of strings, base64url as bit strings, and freshness of
   nonces in terms of the table's rows. *)
From Verif Require Import Auth.
From Coq Require Import String Ascii.

(* The n low bits of v, highest first. *)
Fixpoint bits (n : nat) (v : Z) : list bool :=
  match n with O => [] | S k => Z.testbit v (Z.of_nat k) :: bits k v end.

(* The base64url alphabet (RFC 4648 section 5): the character at position v stands for v. *)
Definition alphabet : bytes := bs "ABCDEFGHIJKLMNOPQRSTUVWXYZabcdefghijklmnopqrstuvwxyz0123456789-_".
Definition stands_for (c v : Z) : Prop := 0 <= v < 64 /\ nth_error alphabet (Z.to_nat v) = Some c.

(* text is unpadded base64url for b: the bits of the characters are the bits of the bytes
   followed by less than six more, of any value. *)
Definition base64url (text b : bytes) : Prop :=
  exists vs pad, Forall2 stands_for text vs /\ is_bytes b /\ (List.length pad < 6)%nat /\
    flat_map (bits 6) vs = flat_map (bits 8) b ++ pad.

(* Text with line breaks in it. *)
Definition line_break (c : Z) : Prop := c = 10 \/ c = 13.
Inductive without_breaks : bytes -> bytes -> Prop :=
| wb_nil : without_breaks [] []
| wb_break c t u : line_break c -> without_breaks t u -> without_breaks (c :: t) u
| wb_keep c t u : ~ line_break c -> without_breaks t u -> without_breaks (c :: t) (c :: u).

(* A token component holds b: as base64url text, or with line breaks so few that the length
   still says the same number of bytes. *)
Definition holds (part b : bytes) : Prop :=
  exists text, without_breaks part text /\ base64url text b /\
    8 * len b <= 6 * len part < 8 * (len b + 1).

Definition space (n : nat) : bytes := repeat 32 n.
(* Same letters, in either case. *)
Definition same_letter (c d : Z) : Prop := c = d \/ (65 <= d <= 90 /\ c = d + 32) \/ (97 <= d <= 122 /\ c = d - 32).
(* The header value is Bearer and a token, in spaces. *)
Definition bearer (s token : bytes) : Prop :=
  exists a w b c, s = space a ++ w ++ space (S b) ++ token ++ space c /\
    Forall2 same_letter w (bs "Bearer") /\
    (exists x t, token = x :: t /\ x <> 32) /\ (exists x t, token = t ++ [x] /\ x <> 32).

(* Words separated by single spaces. *)
Fixpoint join (ws : list bytes) : bytes :=
  match ws with [] => [] | [w] => w | w :: t => w ++ [32] ++ join t end.

(* A principal key in a token header. *)
Definition names_key (h : header) (i : id) : Prop :=
  exists k, Jwk h = Some k /\ Kty k = bs "OKP" /\ Crv k = bs "Ed25519" /\
    List.length (X k) = 43%nat /\ base64url (X k) (key i) /\ List.length (key i) = 32%nat /\
    str i = bs "ed25519:" ++ X k.

(* No row for the key's nonce that is still kept at the time. *)
Definition fresh (db : list row) (now : Z) (k nonce : bytes) : Prop :=
  forall x, In (k, nonce, x) db -> x < now.

(* The header value proves the principal i with the scope at time t1 (t2 at the nonce check). *)
Definition proves (e : env) (t1 t2 : Z) (db : list row) (s : bytes) (i : id) (scope : list bytes) : Prop :=
  exists h p sg bh bp sig hd c,
    bearer s (h ++ [46] ++ p ++ [46] ++ sg) /\ ~ In 46 h /\ ~ In 46 p /\
    holds h bh /\ holds p bp /\ holds sg sig /\
    parse_header e bh = Some hd /\ parse_claims e bp = Some c /\
    (t1 <= Exp c <= t1 + 900 \/ (local e = true /\ Exp c = 0)) /\
    (Aud c = [] \/ In (identity e) (Aud c)) /\
    ((Alg hd = bs "EdDSA" /\ names_key hd i /\ verify e (key i) (h ++ [46] ++ p) sig = true /\
      (Nonce c = [] \/ (nonces e = true /\ fresh db t2 (key i) (Nonce c)))) \/
     (Alg hd = bs "none" /\ local e = true /\ sig = [] /\ Nonce c = [] /\ i = LocalID)) /\
    Scope c = join scope /\ (1 <= List.length scope <= 10)%nat /\ Forall (fun w => ~ In 32 w) scope.

(* The header value is a signed token that names the principal's key and has the claims. *)
Definition carries (e : env) (s : bytes) (i : id) (c : claims) : Prop :=
  exists h p sg bh bp hd,
    bearer s (h ++ [46] ++ p ++ [46] ++ sg) /\ ~ In 46 h /\ ~ In 46 p /\ holds h bh /\ holds p bp /\
    parse_header e bh = Some hd /\ parse_claims e bp = Some c /\ Alg hd = bs "EdDSA" /\ names_key hd i.

(* Times of the server's clock: positive and far from overflow. *)
Definition clock (t : Z) : Prop := 0 <= t < 2 ^ 62.
(* JSON numbers are decoded to int64. *)
Definition claims_int64 (e : env) : Prop := forall b c, parse_claims e b = Some c -> -2 ^ 63 <= Exp c < 2 ^ 63.
