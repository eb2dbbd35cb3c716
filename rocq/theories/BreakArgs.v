(* BreakArgs.v: model of the client's breakpoint arguments: cmd/gate/main/debug.go:128-297 parseBreakpoints.
   Parameters: unicode.IsNumber of a string's first character, strconv.ParseUint with base 0, strconv.Atoi; what the DWARF sections of
   the module say is given as lists (of line entries, and of the subprograms' attributes).  The Go map's order of files is a parameter.
   The last column of the sorted line entries, which is only printed, is left out. *)
From Verif Require Import Breakpoints.
From Coq Require Import Ascii.
Definition str := list ascii.
Definition slash : ascii := "/"%char.
Definition colon : ascii := ":"%char.
Definition str_eqb (a b : str) : bool := if list_eq_dec ascii_dec a b then true else false.

(* strings.SplitN(s, ":", 2): the part after the first separator, if there is one *)
Fixpoint split2 (s : str) : str * option str :=
  match s with
  | [] => ([], None)
  | x :: t => if Ascii.eqb x colon then ([], Some t) else let (a, b) := split2 t in (x :: a, b)
  end.
(* the parts of a path between slashes *)
Fixpoint parts (s : str) : list str :=
  match s with
  | [] => [[]]
  | x :: t => if Ascii.eqb x slash then [] :: parts t else match parts t with [] => [[x]] | p :: ps => (x :: p) :: ps end
  end.
(* path.Join("/", s), that is path.Clean of "/" ++ "/" ++ s: a rooted path without empty, "." or ".." parts; ".." removes the one before it *)
Fixpoint clean (done : list str) (l : list str) : list str :=
  match l with
  | [] => rev done
  | p :: t => if str_eqb p [] || str_eqb p ["."%char] then clean done t
              else if str_eqb p ["."%char; "."%char] then clean (tl done) t else clean (p :: done) t
  end.
Definition rooted (l : list str) : str := match l with [] => [slash] | _ => flat_map (fun p => slash :: p) l end.
Definition JoinRoot (s : str) : str := rooted (clean [] (parts s)).
(* strings.HasSuffix *)
Definition HasSuffix (s suffix : str) : bool :=
  (Nat.leb (length suffix) (length s)) && str_eqb (skipn (length s - length suffix) s) suffix.

Record line_entry := LineEntry { l_file : str; l_line : Z; l_addr : Z }.
Record subprogram := Subprogram { lowpc : option Z; s_name : option str }.
Record dwarf := Dwarf { lines : list line_entry; subs : list subprogram }.

(* debug.go:53-66, 215-217: sort.Sort with Less *)
Definition less (a b : line_entry) : bool := if l_line a =? l_line b then l_addr a <? l_addr b else l_line a <? l_line b.
Fixpoint insert_line (x : line_entry) (l : list line_entry) : list line_entry :=
  match l with [] => [x] | y :: t => if less y x then y :: insert_line x t else x :: l end.
Fixpoint sort_lines (l : list line_entry) : list line_entry := match l with [] => [] | x :: t => insert_line x (sort_lines t) end.
(* debug.go:193-211: locAddrs[file] *)
Definition locAddrs (d : dwarf) (file : str) : list line_entry := sort_lines (filter (fun e => str_eqb (l_file e) file) (lines d)).
(* debug.go:219-242: funcAddrs[name] *)
Definition funcAddrs (d : dwarf) (name : str) : list Z :=
  flat_map (fun e => match lowpc e, s_name e with
                     | Some off, Some n => if (off =? 0) || str_eqb n [] || negb (str_eqb n name) then [] else [off]
                     | _, _ => []
                     end) (subs d).
(* debug.go:247-261 *)
Definition location (d : dwarf) (order : list str) (file : str) (line : Z) : list Z :=
  flat_map (fun f => if HasSuffix (JoinRoot f) (JoinRoot file)
                     then match find (fun x => l_line x =? line) (locAddrs d f) with Some x => [l_addr x] | None => [] end
                     else []) order.
(* debug.go:268-274 *)
Definition insnOffs (insns : list Z) : list Z := filter (fun o => negb (o =? 0)) insns.
(* debug.go:279-289 *)
Definition function (d : dwarf) (offs : list Z) (name : str) : list Z :=
  flat_map (fun low => let i := go_search (length offs) (fun i => nth i offs 0 >=? low) 0 (length offs) in
                       if Nat.eqb i (length offs) then [] else [nth i offs 0]) (funcAddrs d name).

Inductive arg := AOffset (o : Z) | ALocation (file : str) (line : Z) | AFunction (name : str).
(* a loop whose body fails (log.Fatalf) if it finds nothing *)
Fixpoint each {A} (f : A -> list Z) (l : list A) : option (list Z) :=
  match l with
  | [] => Some []
  | a :: t => match f a with [] => None | r => match each f t with Some r' => Some (r ++ r') | None => None end end
  end.
Fixpoint classify_all (f : str -> option arg) (l : list str) : option (list arg) :=
  match l with [] => Some [] | s :: t => match f s with None => None | Some a => match classify_all f t with None => None | Some r => Some (a :: r) end end end.
Definition offsets (l : list arg) : list Z := flat_map (fun a => match a with AOffset o => [o] | _ => [] end) l.
Definition locations (l : list arg) : list (str * Z) := flat_map (fun a => match a with ALocation f n => [(f, n)] | _ => [] end) l.
Definition functions (l : list arg) : list str := flat_map (fun a => match a with AFunction s => [s] | _ => [] end) l.

Section Parse.
Variable isNumber : str -> bool.
Variables (parseUint atoi : str -> option Z).
(* debug.go:134-165; None: log.Fatalf *)
Definition classify (s : str) : option arg :=
  match split2 s with
  | (_, None) =>
      match s with
      | [] => None
      | x :: _ => if Ascii.eqb x zero then None
                  else if isNumber s then match parseUint s with Some o => Some (AOffset o) | None => None end
                  else Some (AFunction s)
      end
  | (file, Some t) => match atoi t with Some line => Some (ALocation file line) | None => None end
  end.
(* debug.go:128-297; d: the module's debug information; insns: the code map's source offsets; None: log.Fatal *)
Definition parseBreakpoints (d : option dwarf) (order : list str) (insns : list Z) (args : list str) : option (list Z) :=
  match classify_all classify args with
  | None => None
  | Some l =>
      match locations l, functions l with
      | [], [] => Some (offsets l)                                         (* 167-169 *)
      | _, _ =>
          match d with
          | None => None                                                   (* 172-174 *)
          | Some d =>
              match each (fun p => location d order (fst p) (snd p)) (locations l) with
              | None => None
              | Some a => match each (function d (insnOffs insns)) (functions l) with
                          | None => None
                          | Some b => Some (offsets l ++ a ++ b)
                          end
              end
          end
      end
  end.
End Parse.
