(* StackSpec.v: what a call stack of a suspended program is, and its native and portable
   forms. *)
From Verif Require Export Stack.

(* What the compiler guarantees of a call map: addresses are increasing 32-bit numbers, stack
   offsets are not negative, the init routine comes first, every function has a type. *)
Definition increasing (l : list Z) : Prop := forall i j, (i < j < length l)%nat -> nth i l 0 < nth j l 0.
Record wf_code (c : code) : Prop := {
  wf_sites : increasing (map fst (sites c));
  wf_rets : Forall (fun s => 0 <= fst s < 2 ^ 32 /\ 0 <= snd s < 2 ^ 31) (sites c);
  wf_nsites : len (sites c) < 2 ^ 32;
  wf_funcs : increasing (funcs c);
  wf_addrs : Forall (fun a => 0 < a < 2 ^ 32) (funcs c);
  wf_nfuncs : len (funcs c) < 2 ^ 32;
  wf_ftypes : length (ftypes c) = length (funcs c);
  wf_types : Forall (fun t => (t < length (types c))%nat) (ftypes c)
}.

(* A frame: the call site (its index) where its function is, and the contents of its
   variables.  A stack: the frames, innermost first; the call site in the init routine; and
   what is below it: the entry function to be called after the start function returns, if
   any, or nothing when the entry function has been called. *)
Record frame := Frame { site : nat; vars : bytes }.
Inductive below := BEntry (f : option nat) | BStarted.
Record callstack := CallStack { frames : list frame; bottom : nat; under : below }.

Definition ret_of (c : code) (i : nat) : Z := fst (nth i (sites c) (0, 0)).
Definition off_of (c : code) (i : nat) : Z := snd (nth i (sites c) (0, 0)).
(* the function f has type sig *)
Definition has_type (c : code) (f : nat) (sig : ftype) : Prop :=
  exists t, nth_error (ftypes c) f = Some t /\ nth_error (types c) t = Some sig.
(* the address a is in function f: the last one that begins at or before it *)
Definition in_func (c : code) (a : Z) (f : nat) : Prop :=
  (f < length (funcs c))%nat /\ nth f (funcs c) 0 <= a /\
  forall g, (f < g < length (funcs c))%nat -> a < nth g (funcs c) 0.

(* A frame of a function, with room for the arguments of the function it has called. *)
Inductive valid_frames (c : code) : nat -> list frame -> Prop :=
| VNone : valid_frames c 0 []
| VFrame args fr l f sig :
    (site fr < length (sites c))%nat ->
    in_func c (ret_of c (site fr)) f -> has_type c f sig ->
    off_of c (site fr) mod 8 = 0 ->
    len (vars fr) = off_of c (site fr) - 8 -> is_bytes (vars fr) ->
    Z.of_nat args * 8 <= len (vars fr) ->
    valid_frames c (params sig) l ->
    valid_frames c args (fr :: l).
Definition valid_under (c : code) (off : Z) (b : below) : Prop :=
  match b with
  | BStarted => off = 0
  | BEntry None => off = 8
  | BEntry (Some f) => off = 8 /\ (f < length (funcs c))%nat /\ exists sig, has_type c f sig /\ entry_type sig = true
  end.
Definition valid (c : code) (s : callstack) : Prop :=
  valid_frames c 0 (frames s) /\
  (bottom s < length (sites c))%nat /\
  (forall f, (f < length (funcs c))%nat -> ret_of c (bottom s) < nth f (funcs c) 0) /\
  valid_under c (off_of c (bottom s)) (under s).

(* Native form with the text at the given address: 64-bit little-endian addresses. *)
Definition native_under (c : code) (b : below) : bytes :=
  match b with
  | BStarted => []
  | BEntry None => le 8 0
  | BEntry (Some f) => le 8 (nth f (funcs c) 0)
  end.
Definition native_frames (c : code) (text : Z) (l : list frame) : bytes :=
  flat_map (fun fr => le 8 (text + ret_of c (site fr)) ++ vars fr) l.
Definition native (c : code) (text : Z) (s : callstack) : bytes :=
  native_frames c text (frames s) ++ le 8 (text + ret_of c (bottom s)) ++ native_under c (under s).

(* Portable form: 32-bit call site index and 32-bit stack offset; function index. *)
Definition portable_site (c : code) (i : nat) : bytes := le 4 (Z.of_nat i) ++ le 4 (off_of c i).
Definition portable_under (b : below) : bytes :=
  match b with
  | BStarted => []
  | BEntry None => le 8 (2 ^ 32 - 1)
  | BEntry (Some f) => le 8 (Z.of_nat f)
  end.
Definition portable_frames (c : code) (l : list frame) : bytes :=
  flat_map (fun fr => portable_site c (site fr) ++ vars fr) l.
Definition portable (c : code) (s : callstack) : bytes :=
  portable_frames c (frames s) ++ portable_site c (bottom s) ++ portable_under (under s).

(* A stack that ends too early: after complete frames comes a call site whose frame, or a
   bottom call site whose entry function, is not all there. *)
Inductive frames_until (c : code) : nat -> list frame -> nat -> Prop :=
| UNone args : frames_until c args [] args
| UFrame args fr l f sig args' :
    (site fr < length (sites c))%nat ->
    in_func c (ret_of c (site fr)) f -> has_type c f sig ->
    off_of c (site fr) mod 8 = 0 ->
    len (vars fr) = off_of c (site fr) - 8 ->
    Z.of_nat args * 8 <= len (vars fr) ->
    frames_until c (params sig) l args' ->
    frames_until c args (fr :: l) args'.
Definition truncated (c : code) (buf : bytes) : Prop :=
  exists l args i rest, buf = portable_frames c l ++ portable_site c i ++ rest /\
    frames_until c 0 l args /\ (i < length (sites c))%nat /\
    if in_init c (ret_of c i) then args = 0%nat /\ off_of c i = 8 /\ rest = []
    else off_of c i mod 8 = 0 /\ Z.of_nat args * 8 <= off_of c i - 8 /\ len rest < off_of c i - 8.
