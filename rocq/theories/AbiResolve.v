(* AbiResolve.v: model of runtime/abi/abi.go, which resolves the function imports of
   untrusted modules. *)
From Verif Require Export Base.
From Coq Require Export String Ascii.
Open Scope string_scope.
Open Scope Z_scope.

Inductive ty := I32 | I64 | F32 | F64.
Definition ty_eqb (a b : ty) : bool :=
  match a, b with I32, I32 | I64, I64 | F32, F32 | F64, F64 => true | _, _ => false end.
Fixpoint tys_eqb (a b : list ty) : bool :=
  match a, b with [], [] => true | x :: a, y :: b => ty_eqb x y && tys_eqb a b | _, _ => false end.
(* wa.FuncType: parameters and results *)
Definition sig := (list ty * list ty)%type.
Definition sig_eqb (a b : sig) : bool := tys_eqb (fst a) (fst b) && tys_eqb (snd a) (snd b).

Fixpoint assoc {A} (k : string) (l : list (string * A)) : option A :=
  match l with [] => None | (k', v) :: t => if String.eqb k k' then Some v else assoc k t end.

(* The function exports of the embedded library (runtime/abi/library.go, libraryWASM;
   its text form is library.wat), with their types. *)
Definition library : list (string * sig) := [
  ("args_get", ([I32; I32], [I32]));
  ("args_sizes_get", ([I32; I32], [I32]));
  ("clock_res_get", ([I32; I32], [I32]));
  ("clock_time_get", ([I32; I64; I32], [I32]));
  ("environ_get", ([I32; I32], [I32]));
  ("environ_sizes_get", ([I32; I32], [I32]));
  ("io", ([I32; I32; I32; I32; I32; I32; I32], []));
  ("fd", ([], [I32]));
  ("fd_close", ([I32], [I32]));
  ("fd_fdstat_get", ([I32; I32], [I32]));
  ("fd_fdstat_set_flags", ([I32; I32], [I32]));
  ("fd_fdstat_set_rights", ([I32; I64; I64], [I32]));
  ("fd_filestat_get", ([I32; I32], [I32]));
  ("fd_read", ([I32; I32; I32; I32], [I32]));
  ("fd_renumber", ([I32; I32], [I32]));
  ("fd_stub_i32", ([I32], [I32]));
  ("fd_stub_i32i32", ([I32; I32], [I32]));
  ("fd_stub_i32i64", ([I32; I64], [I32]));
  ("fd_stub_i32i32i32", ([I32; I32; I32], [I32]));
  ("fd_stub_i32i64i64", ([I32; I64; I64], [I32]));
  ("fd_stub_i32i64i32i32", ([I32; I64; I32; I32], [I32]));
  ("fd_stub_i32i64i64i32", ([I32; I64; I64; I32], [I32]));
  ("fd_stub_i32i32i32i64i32", ([I32; I32; I32; I64; I32], [I32]));
  ("fd_write", ([I32; I32; I32; I32], [I32]));
  ("path_stub_i32i32i32", ([I32; I32; I32], [I32]));
  ("path_stub_i32i32i32i32i32", ([I32; I32; I32; I32; I32], [I32]));
  ("path_stub_i32i32i32i32i32i32", ([I32; I32; I32; I32; I32; I32], [I32]));
  ("path_stub_i32i32i32i32i32i32i32", ([I32; I32; I32; I32; I32; I32; I32], [I32]));
  ("path_stub_i32i32i32i32i64i64i32", ([I32; I32; I32; I32; I64; I64; I32], [I32]));
  ("path_stub_i32i32i32i32i32i64i64i32i32", ([I32; I32; I32; I32; I32; I64; I64; I32; I32], [I32]));
  ("poll_oneoff", ([I32; I32; I32; I32], [I32]));
  ("proc_exit", ([I32], []));
  ("proc_raise", ([I32], [I32]));
  ("random_get", ([I32; I32], [I32]));
  ("sched_yield", ([], [I32]));
  ("sock_recv", ([I32; I32; I32; I32; I32; I32], [I32]));
  ("sock_send", ([I32; I32; I32; I32; I32], [I32]));
  ("sock_shutdown", ([I32; I32], [I32]))].

(* abi.go:75-78 *)
Definition gateFunctions : list (string * (string * bool)) := [("fd", ("fd", false)); ("io", ("io", false))].
(* abi.go:80-126: import name, library function, random *)
Definition wasiFunctions : list (string * (string * bool)) := [
  ("args_get", ("args_get", false));
  ("args_sizes_get", ("args_sizes_get", false));
  ("clock_res_get", ("clock_res_get", false));
  ("clock_time_get", ("clock_time_get", false));
  ("environ_get", ("environ_get", false));
  ("environ_sizes_get", ("environ_sizes_get", false));
  ("fd_advise", ("fd_stub_i32i64i64i32", false));
  ("fd_allocate", ("fs_stub_i64i64", false));
  ("fd_close", ("fd_close", false));
  ("fd_datasync", ("fd_stub_i32", false));
  ("fd_fdstat_get", ("fd_fdstat_get", false));
  ("fd_fdstat_set_flags", ("fd_fdstat_set_flags", false));
  ("fd_fdstat_set_rights", ("fd_fdstat_set_rights", false));
  ("fd_filestat_get", ("fd_filestat_get", false));
  ("fd_filestat_set_size", ("fd_stub_i32i64", false));
  ("fd_filestat_set_times", ("fd_stub_i32i64i64i32", false));
  ("fd_pread", ("fd_stub_i32i32i32i64i32", false));
  ("fd_prestat_dir_name", ("fd_stub_i32i32i32", false));
  ("fd_prestat_get", ("fd_stub_i32i32", false));
  ("fd_pwrite", ("fd_stub_i32i32i32i64i32", false));
  ("fd_read", ("fd_read", false));
  ("fd_readdir", ("fd_stub_i32i32i32i64i32", false));
  ("fd_renumber", ("fd_renumber", false));
  ("fd_seek", ("fd_stub_i32i64i32i32", false));
  ("fd_sync", ("fd_stub_i32", false));
  ("fd_tell", ("fd_stub_i32i32", false));
  ("fd_write", ("fd_write", false));
  ("path_create_directory", ("path_stub_i32i32i32", false));
  ("path_filestat_get", ("path_stub_i32i32i32i32i32", false));
  ("path_filestat_set_times", ("path_stub_i32i32i32i32i64i64i32", false));
  ("path_link", ("path_stub_i32i32i32i32i32i32i32", false));
  ("path_open", ("path_stub_i32i32i32i32i32i64i64i32i32", false));
  ("path_readlink", ("path_stub_i32i32i32i32i32i32", false));
  ("path_remove_directory", ("path_stub_i32i32i32", false));
  ("path_rename", ("path_stub_i32i32i32i32i32i32", false));
  ("path_symlink", ("path_stub_i32i32i32i32i32", false));
  ("path_unlink_file", ("path_stub_i32i32i32", false));
  ("poll_oneoff", ("poll_oneoff", false));
  ("proc_exit", ("proc_exit", false));
  ("proc_raise", ("proc_raise", false));
  ("random_get", ("random_get", true));
  ("sched_yield", ("sched_yield", false));
  ("sock_recv", ("sock_recv", false));
  ("sock_send", ("sock_send", false));
  ("sock_shutdown", ("sock_shutdown", false))].

(* strings.HasPrefix(s, p), and s[len(p):] *)
Fixpoint strip (p s : string) : option string :=
  match p, s with
  | EmptyString, _ => Some s
  | String a p, String b s => if Ascii.eqb a b then strip p s else None
  | _, _ => None
  end.
(* s[:i], s[i+1:] for i = strings.LastIndexByte(s, '_') *)
Fixpoint last_split (s : string) : option (string * string) :=
  match s with
  | EmptyString => None
  | String c t =>
      match last_split t with
      | Some (a, b) => Some (String c a, b)
      | None => if Ascii.eqb c "_" then Some (EmptyString, t) else None
      end
  end.
Definition digit (c : ascii) : option Z :=
  let n := Z.of_nat (nat_of_ascii c) in if (48 <=? n) && (n <=? 57) then Some (n - 48) else None.
(* strconv.ParseUint(s, 10, 32) *)
Inductive parsed := PNum (n : Z) | PRange | PSyntax.
Fixpoint parse_loop (n : Z) (s : string) : parsed :=
  match s with
  | EmptyString => PNum n
  | String c t =>
      match digit c with
      | None => PSyntax
      | Some d => let n' := 10 * n + d in if 2 ^ 32 - 1 <? n' then PRange else parse_loop n' t
      end
  end.
Definition ParseUint32 (s : string) : parsed :=
  match s with EmptyString => PSyntax | _ => parse_loop 0 s end.
(* abi.go:208-215 *)
Fixpoint allDigits (s : string) : bool :=
  match s with EmptyString => true | String c t => match digit c with Some _ => allDigits t | None => false end end.
Definition maxPacketSize : Z := 65536.

Inductive verdict := Accept (libfunc : string) (random : bool) | Reject | Crash.

(* abi.go:171-183: the number in a gate function name; false is panic("TODO") *)
Definition suffix_ok (suffix : string) : bool :=
  match strip "0" suffix with
  | Some _ => false
  | None =>
      match ParseUint32 suffix with
      | PSyntax => false
      | PRange => allDigits suffix
      | PNum n => negb (n <? maxPacketSize)
      end
  end.

(* abi.go:132-201 ResolveFunc *)
Definition ResolveFunc (module field : string) (s : sig) : verdict :=
  let ' (m, f) :=
    if String.eqb module "env" then
      match strip "__gate_" field with
      | Some f => ("gate", f)
      | None => match strip "__wasi_" field with
                | Some f => ("wasi_snapshot_preview1", f)
                | None => (module, field)
                end
      end
    else (module, field) in
  let abi :=
    if String.eqb m "gate" then
      match last_split f with
      | None => Ok None
      | Some (EmptyString, _) => Ok None
      | Some (prefix, suffix) =>
          match assoc prefix gateFunctions with
          | None => Ok None
          | Some a => if suffix_ok suffix then Ok (Some a) else Panic
          end
      end
    else if String.eqb m "wasi_snapshot_preview1" || String.eqb m "wasi_unstable" then Ok (assoc f wasiFunctions)
    else Ok None in
  match abi with
  | Ok (Some (name, random)) =>
      match assoc name library with
      | None => Crash
      | Some libsig => if sig_eqb s libsig then Accept name random else Reject
      end
  | Ok None => Reject
  | _ => Crash
  end.

(* abi.go:203-206 ResolveGlobal: every imported global is rejected. *)
Definition ResolveGlobal (module field : string) (t : ty) : verdict := Reject.
