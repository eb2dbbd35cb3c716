(* Auth.v: model of bearer token authentication: server/web/jwt.go, server/web/verify.go,
   server/web/request.go:266-284, the token makers of server/web/api/webapi.go:121-235,
   internal/principal/principalkey.go, internal/principal/principalid.go and the nonce table of
   server/database/sql/sql.go:36-47,90-118.

   Strings are byte lists.  JSON coding and the Ed25519 functions are parameters (record [env]).
   Left out: what is written in an error response, and the events for monitoring. *)
From Verif Require Export Base.
From Coq Require Import String Ascii.

(* A string literal as bytes. *)
Fixpoint bs (s : string) : bytes :=
  match s with EmptyString => [] | String c t => Z.of_nat (nat_of_ascii c) :: bs t end.
Fixpoint beq (a b : bytes) : bool :=
  match a, b with
  | [], [] => true
  | x :: a, y :: b => (x =? y) && beq a b
  | _, _ => false
  end.

(** Go's standard library: encoding/base64.RawURLEncoding and strings *)

(* base64 encodeURL: A-Z a-z 0-9 - _ *)
Definition char6 (v : Z) : Z :=
  if v <? 26 then 65 + v else if v <? 52 then 97 + (v - 26) else if v <? 62 then 48 + (v - 52)
  else if v =? 62 then 45 else 95.
(* base64 decodeMap; None is 0xff *)
Definition val6 (c : Z) : option Z :=
  if (65 <=? c) && (c <=? 90) then Some (c - 65)
  else if (97 <=? c) && (c <=? 122) then Some (c - 97 + 26)
  else if (48 <=? c) && (c <=? 57) then Some (c - 48 + 52)
  else if c =? 45 then Some 62 else if c =? 95 then Some 63 else None.
(* base64 Encode: three bytes to four characters; one or two left bytes to two or three characters *)
Fixpoint b64encode (l : bytes) : bytes :=
  match l with
  | a :: b :: c :: t =>
      char6 (a / 4) :: char6 ((a mod 4) * 16 + b / 16) :: char6 ((b mod 16) * 4 + c / 64) :: char6 (c mod 64) :: b64encode t
  | [a; b] => [char6 (a / 4); char6 ((a mod 4) * 16 + b / 16); char6 ((b mod 16) * 4)]
  | [a] => [char6 (a / 4); char6 ((a mod 4) * 16)]
  | [] => []
  end.
(* base64 decodeQuantum: four characters to three bytes; two or three left characters to one or
   two bytes, the excess bits being ignored (not Strict); a single left character is an error. *)
Fixpoint b64quanta (l : bytes) : option bytes :=
  match l with
  | c1 :: c2 :: c3 :: c4 :: t =>
      match val6 c1, val6 c2, val6 c3, val6 c4, b64quanta t with
      | Some a, Some b, Some c, Some d, Some r => Some (a * 4 + b / 16 :: (b mod 16) * 16 + c / 4 :: (c mod 4) * 64 + d :: r)
      | _, _, _, _, _ => None
      end
  | [c1; c2; c3] =>
      match val6 c1, val6 c2, val6 c3 with
      | Some a, Some b, Some c => Some [a * 4 + b / 16; (b mod 16) * 16 + c / 4]
      | _, _, _ => None
      end
  | [c1; c2] => match val6 c1, val6 c2 with Some a, Some b => Some [a * 4 + b / 16] | _, _ => None end
  | [_] => None
  | [] => Some []
  end.
(* base64 Decode: carriage returns and line feeds are skipped wherever they are *)
Definition b64decode (l : bytes) : option bytes := b64quanta (filter (fun c => negb ((c =? 10) || (c =? 13))) l).
(* base64 DecodedLen (NoPadding) *)
Definition decodedLen (n : Z) : Z := n * 6 / 8.

(* strings.TrimLeft(s, " ") and strings.Trim(s, " ") *)
Fixpoint trimLeft (s : bytes) : bytes := match s with 32 :: t => trimLeft t | _ => s end.
Definition trim (s : bytes) : bytes := rev (trimLeft (rev (trimLeft s))).
(* strings.IndexByte(s, c): None for -1 *)
Fixpoint indexByte (s : bytes) (c : Z) : option nat :=
  match s with [] => None | x :: t => if x =? c then Some O else option_map S (indexByte t c) end.
(* strings.EqualFold with an argument all of whose letters have ASCII letters as their only
   case variants (as in Bearer) *)
Definition lower (c : Z) : Z := if (65 <=? c) && (c <=? 90) then c + 32 else c.
Definition equalFold (a b : bytes) : bool := beq (map lower a) (map lower b).
(* strings.SplitN(s, sep, n) and bytes.SplitN with one-byte sep and n = k + 1 *)
Fixpoint splitN (s : bytes) (sep : Z) (k : nat) {struct k} : list bytes :=
  match k with
  | O => [s]
  | S k' => (fix go (s acc : bytes) : list bytes :=
               match s with
               | [] => [rev acc]
               | x :: t => if x =? sep then rev acc :: splitN t sep k' else go t (x :: acc)
               end) s []
  end.

(** Values *)

(* webapi.go:141-145 PublicKey *)
Record jwk := JWK { Kty : bytes; Crv : bytes; X : bytes }.
(* webapi.go:154-157 TokenHeader *)
Record header := Header { Alg : bytes; Jwk : option jwk }.
(* webapi.go:180-185 Claims *)
Record claims := Claims { Exp : Z; Aud : list bytes; Nonce : bytes; Scope : bytes }.
(* principalid.go:21-24 ID: raw key and string *)
Record id := ID { key : bytes; str : bytes }.
(* principalid.go:26 *)
Definition LocalID : id := ID (repeat 0 32) (bs "local").

(* sql.go:38-44: a row of the nonce table: scope, nonce, expire *)
Definition row := (bytes * bytes * Z)%type.

(* What the code gets from libraries and configuration: json.Unmarshal and json.Marshal,
   ed25519.Verify, the handler's identity and local mode (handler.go:43-50), and whether it has
   nonce storage. *)
Record env := Env {
  parse_header : bytes -> option header;
  parse_claims : bytes -> option claims;
  verify : bytes -> bytes -> bytes -> bool;   (* public key, message, signature *)
  identity : bytes;
  local : bool;
  nonces : bool
}.

(* Result of an authentication: the principal (if any) and the scope put in the context, a
   refusal (error response and panic(nil)), or another panic. *)
Inductive outcome := Accept (pri : id) (scope : list bytes) | Anonymous | Refuse | Crash.

(** internal/principal *)

(* principalkey.go:26-43 parseEd25519Key *)
Definition parseEd25519Key (enc : bytes) : option bytes :=
  if negb (len enc =? 43) then None
  else match b64decode enc with
       | None => None
       | Some k => if len k =? 32 then Some k else None
       end.
(* principalkey.go:20-24 ParseEd25519Key *)
Definition ParseEd25519Key (enc : bytes) : option id :=
  match parseEd25519Key enc with Some k => Some (ID k (bs "ed25519:" ++ enc)) | None => None end.
(* principalid.go:28-44 ParseID *)
Definition ParseID (s : bytes) : option id :=
  let fallback := if beq s (bs "local") then Some LocalID else None in
  match splitN s 58 1 with
  | [a; b] => if beq a (bs "ed25519") then match parseEd25519Key b with Some k => Some (ID k s) | None => fallback end else fallback
  | _ => fallback
  end.

(** server/database/sql *)

(* sql.go:90-118 CheckNonce, without database errors: expired rows are deleted; the insertion
   fails if a row with the same scope and nonce (the primary key) is left.  now: the time at
   this call. *)
Definition CheckNonce (now : Z) (scope nonce : bytes) (expire : Z) (db : list row) : bool * list row :=
  let db := filter (fun r => negb (snd r <? now)) db in
  if existsb (fun r => beq (fst (fst r)) scope && beq (snd (fst r)) nonce) db then (false, db)
  else (true, (scope, nonce, expire) :: db).

(** server/web *)

(* jwt.go:31-43 mustParseBearerToken *)
Definition parseBearerToken (s : bytes) : option bytes :=
  let s := trim s in
  match indexByte s 32 with
  | Some i => if Nat.eqb i 6 && equalFold (firstn i s) (bs "Bearer") then Some (trimLeft (skipn (i + 1) s)) else None
  | None => None
  end.
(* jwt.go:106-114 mustDecodeJWTComponent with the destination sized as in jwt.go:49-61 *)
Definition decodeJWTComponent (part : bytes) : option bytes :=
  match b64decode part with
  | Some b => if len b =? decodedLen (len part) then Some b else None
  | None => None
  end.
(* jwt.go:137-160 mustParseJWTHeader: None is a refusal, Some None is no key (local).  Go
   dereferences the jwk of an EdDSA header without checking that there is one. *)
Definition parseJWTHeader (e : env) (h : header) : res (option id) :=
  if beq (Alg h) (bs "EdDSA") then
    match Jwk h with
    | None => Panic
    | Some k => if beq (Kty k) (bs "OKP") && beq (Crv k) (bs "Ed25519")
                then match ParseEd25519Key (X k) with Some i => Ok (Some i) | None => Err end
                else Err
    end
  else if beq (Alg h) (bs "none") then (if local e then Ok None else Err)
  else Err.
(* verify.go:18-35 mustVerifyExpiration; now: time.Now().Unix() *)
Definition verifyExpiration (e : env) (now expires : Z) : bool :=
  if (expires =? 0) && local e then true
  else let margin := s64 (expires - now) in negb (margin <? 0) && negb (margin >? 900).
(* verify.go:37-50 mustVerifyAudience *)
Definition verifyAudience (e : env) (aud : list bytes) : bool :=
  match aud with [] => true | _ => existsb (fun a => beq a (identity e)) aud end.
(* verify.go:52-74 mustVerifySignature *)
Definition verifySignature (e : env) (pri : option id) (alg signed sig : bytes) : res bool :=
  if beq alg (bs "EdDSA") then
    match pri with Some p => Ok (verify e (key p) signed sig) | None => Panic end
  else if beq alg (bs "none") then
    (if len sig =? 0 then
       match pri with Some _ => Panic | None => if local e then Ok true else Panic end
     else Ok false)
  else Ok false.
(* verify.go:76-90 mustVerifyNonce; now: the time at the call of CheckNonce *)
Definition verifyNonce (e : env) (now : Z) (pri : option id) (nonce : bytes) (expires : Z) (db : list row) : res bool * list row :=
  match nonce with
  | [] => (Ok true, db)
  | _ => if nonces e then
           match pri with
           | None => (Panic, db)
           | Some p => let r := CheckNonce now (key p) nonce expires db in (Ok (fst r), snd r)
           end
         else (Ok false, db)
  end.
(* verify.go:92-100 mustValidateScope *)
Definition validateScope (scope : bytes) : option (list bytes) :=
  let a := splitN scope 32 9 in
  if Nat.eqb (List.length a) 10 && (match indexByte (nth 9 a []) 32 with Some _ => true | None => false end) then None else Some a.

(* jwt.go:45-95 mustParseJWT.  t1: time at the expiration check; t2: time at the nonce check *)
Definition parseJWT (e : env) (t1 t2 : Z) (token : bytes) (db : list row) : outcome * list row :=
  match splitN token 46 2 with
  | [p0; p1; p2] =>
      let signed := firstn (List.length p0 + 1 + List.length p1) token in
      match decodeJWTComponent p0, decodeJWTComponent p1, decodeJWTComponent p2 with
      | Some bh, Some bp, Some sig =>
          match parse_header e bh with
          | None => (Refuse, db)
          | Some h =>
              match parseJWTHeader e h with
              | Panic => (Crash, db)
              | Err => (Refuse, db)
              | Ok pri =>
                  match parse_claims e bp with
                  | None => (Refuse, db)
                  | Some c =>
                      if negb (verifyExpiration e t1 (Exp c)) then (Refuse, db)
                      else if negb (verifyAudience e (Aud c)) then (Refuse, db)
                      else match verifySignature e pri (Alg h) signed sig with
                           | Ok true =>
                               let r := verifyNonce e t2 pri (Nonce c) (Exp c) db in
                               (match fst r with
                                | Ok true =>
                                    let i := match pri with Some p => Some p | None => if local e then Some LocalID else None end in
                                    match i with
                                    | None => Crash
                                    | Some i => match validateScope (Scope c) with Some s => Accept i s | None => Refuse end
                                    end
                                | Ok false | Err => Refuse
                                | Panic => Crash
                                end, snd r)
                           | Ok false | Err => (Refuse, db)
                           | Panic => (Crash, db)
                           end
                  end
              end
          end
      | _, _, _ => (Refuse, db)
      end
  | _ => (Refuse, db)
  end.
(* jwt.go:22-29 mustParseAuthorization *)
Definition parseAuthorization (e : env) (t1 t2 : Z) (s : bytes) (require : bool) (db : list row) : outcome * list row :=
  if (len s =? 0) && negb require then (Anonymous, db)
  else match parseBearerToken s with Some t => parseJWT e t1 t2 t db | None => (Refuse, db) end.
(* request.go:266-284 mustParseAuthorizationHeader; values: the Authorization header values *)
Definition parseAuthorizationHeader (e : env) (t1 t2 : Z) (values : list bytes) (require : bool) (db : list row) : outcome * list row :=
  match values with
  | [v] => parseAuthorization e t1 t2 v true db
  | [] => if require then (Refuse, db) else (Anonymous, db)
  | _ => (Refuse, db)
  end.

(* A history of requests: times, header values, and whether authorization is required; the
   outcomes.  The table is shared. *)
Record request := Req { t_exp : Z; t_nonce : Z; values : list bytes; required : bool }.
Fixpoint serve (e : env) (db : list row) (rs : list request) : list outcome :=
  match rs with
  | [] => []
  | r :: t => let o := parseAuthorizationHeader e (t_exp r) (t_nonce r) (values r) (required r) db in
              fst o :: serve e (snd o) t
  end.

(** server/web/api: the token makers *)

(* webapi.go:148-152 PublicKeyEd25519 *)
Definition PublicKeyEd25519 (pub : bytes) : jwk := JWK (bs "OKP") (bs "Ed25519") (b64encode pub).
(* webapi.go:160-165 TokenHeaderEdDSA *)
Definition TokenHeaderEdDSA (k : jwk) : header := Header (bs "EdDSA") (Some k).
(* webapi.go:168-177 MustEncode; marshal: json.Marshal of a header *)
Definition MustEncode (marshal : header -> bytes) (h : header) : bytes := b64encode (marshal h).
(* webapi.go:218-235 unsignedBearer; js: the marshaled claims *)
Definition unsignedBearer (hdr js : bytes) : bytes := bs "Bearer " ++ hdr ++ [46] ++ b64encode js ++ [46].
(* webapi.go:189-201 AuthorizationBearerEd25519; sign: ed25519.Sign with the private key.  The
   buffer's capacity is what 64 signature bytes need (webapi.go:224-227). *)
Definition AuthorizationBearerEd25519 (sign : bytes -> bytes) (hdr js : bytes) : bytes :=
  let b := unsignedBearer hdr js in
  b ++ b64encode (sign (firstn (List.length b - 1 - 7) (skipn 7 b))).
(* webapi.go:204-216 AuthorizationBearerLocal *)
Definition AuthorizationBearerLocal (marshal : header -> bytes) (js : bytes) : bytes :=
  unsignedBearer (MustEncode marshal (Header (bs "none") None)) js.
