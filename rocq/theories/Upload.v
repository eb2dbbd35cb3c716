(* Upload.v: model of the ways in which modules get to the server, and of downloading: server/server.go (UploadModule,
   SourceModule, ModuleContent), server/upload.go, server/source.go, server/program.go (_buildProgram), image/build.go (the
   module's part), server/web/content.go, source/http, source/ipfs.  Accounts and references are in Server.v, sections in Build.v. *)
From Verif Require Export Base.

(* io.ReadCloser: what can be read from it, and whether that ends with io.EOF or some other error *)
Record stream := Stream { s_data : bytes; s_eof : bool }.

(** ** Sources *)

(* net/http: what the client gets from the server.  The header values are as parsed by fmt.Sscanf (both numbers) and by
   strconv.ParseInt. *)
Record response := Response {
  r_status : Z; r_length : Z; r_range : option (Z * Z); r_xlength : option Z; r_body : stream }.
(* What OpenURI returns, and how many times it has closed the body *)
Inductive opened := Content (body : stream) (length : Z) | NoContent (length : Z) | OpenError.

(* source/http/http.go:46: the last byte position of the Range header *)
Definition http_range_last (maxSize : Z) : Z := maxSize - 1.
(* source/http/http.go:96-106 parseContentRange *)
Definition parse_content_range (h : option (Z * Z)) : option (Z * Z) :=
  match h with
  | None => None
  | Some (lastByte, totalLen) =>
      if (lastByte <? 0) || (totalLen <? 0) || (totalLen <=? lastByte) then None else Some (s64 (lastByte + 1), totalLen)
  end.
(* source/http/http.go:60-93: OpenURI after Client.Do has succeeded *)
Definition http_open (maxSize : Z) (resp : response) : opened * nat :=
  if r_status resp =? 200 then
    if r_length resp <? 0 then (OpenError, 1%nat)
    else if r_length resp >? maxSize then (NoContent (r_length resp), 1%nat)
    else (Content (r_body resp) (r_length resp), 0%nat)
  else if r_status resp =? 206 then
    match parse_content_range (r_range resp) with
    | None => (OpenError, 1%nat)
    | Some (rangeLen, totalLen) =>
        if negb (rangeLen =? totalLen) || (totalLen >? maxSize) then (NoContent totalLen, 1%nat)
        else if (0 <=? r_length resp) && negb (r_length resp =? totalLen) then (OpenError, 1%nat)
        else (Content (r_body resp) totalLen, 0%nat)
    end
  else if r_status resp =? 404 then (NoContent 0, 1%nat)
  else (OpenError, 1%nat).
(* source/ipfs/ipfs.go:54-84: OpenURI after Client.Do has succeeded *)
Definition ipfs_open (maxSize : Z) (resp : response) : opened * nat :=
  if r_status resp =? 200 then
    match r_xlength resp with
    | None => (OpenError, 1%nat)
    | Some length =>
        if length >? maxSize then (NoContent length, 1%nat) else (Content (r_body resp) length, 0%nat)
    end
  else if r_status resp =? 404 then (NoContent 0, 1%nat)
  else (OpenError, 1%nat).

(** ** Content encoding *)

Inductive encoding := Identity | Gzip | OtherEncoding.
(* net/http MaxBytesReader: an error is returned if there is more than n bytes *)
Definition max_bytes (n : Z) (s : stream) : stream :=
  let n := Z.max 0 n in
  if len (s_data s) <=? n then s else Stream (firstn (Z.to_nat n) (s_data s)) false.
Section Server.
(* compress/gzip: None if the header is bad *)
Variable gunzip : stream -> option stream.
(* server/web/content.go:14-46 mustDecodeContent.  encodings: the Content-Encoding header's fields.  None: responds with an error. *)
Definition decode_content (encodings : list encoding) (contentLength : Z) (body : stream) : option stream :=
  match encodings with
  | [] | [Identity] => Some body
  | [Gzip] => match gunzip body with
              | None => None
              | Some decoder => Some (max_bytes contentLength decoder)
              end
  | _ => None
  end.

(** ** The server *)

(* What api.KnownModuleHash and the compiler make of a module *)
Variable hash : bytes -> Z.
Variable compiles : bytes -> bool.
Variable text_size : bytes -> Z.

(* Module as stored in the program's image file, and image.Program.ModuleSize *)
Record program := Program { p_module : bytes; p_size : Z; p_text : Z }.
(* server/access.go:34-38 ProgramPolicy *)
Record policy := Policy { max_module : Z; max_text : Z }.
(* server/server.go: s.programs *)
Definition programs := list (Z * program).
Fixpoint lookup (h : Z) (l : programs) : option program :=
  match l with [] => None | (k, p) :: t => if k =? h then Some p else lookup h t end.
(* server/upload.go:13-17 ModuleUpload, and how many times its stream has been closed *)
Record upload := Upload { u_stream : option stream; u_length : Z; u_hash : option Z; u_closed : nat }.
Inductive failure := TooLong | NotFound | SizeMismatch | HashMismatch | BadContent | BadModule | TextTooLong | SourceFailed | BadEncoding.
Inductive result := Module (id : Z) | Failed (f : failure).

(* server/upload.go:19-23 takeStream *)
Definition take_stream (u : upload) : option stream * upload := (u_stream u, Upload None (u_length u) (u_hash u) (u_closed u)).
Definition close_stream (u : upload) : upload := Upload (u_stream u) (u_length u) (u_hash u) (S (u_closed u)).
(* server/source.go:13-19 Close *)
Definition close_upload (u : upload) : upload := match take_stream u with (None, u) => u | (Some _, u) => close_stream u end.

(* image/build.go:71-117 NewBuild: capacity of the module buffer *)
Definition module_capacity (length : Z) : Z := if length >? 0 then length else 0.
(* image/build.go:121-123 ModuleWriter: wag's buffer.Static, whose backing memory is a mapped part of a new file.  None: the
   capacity is exceeded.  All of the content is written: compilation reads it to the end. *)
Definition module_memory (cap : Z) (b : bytes) : option bytes :=
  if len b >? cap then None else Some (b ++ repeat 0 (Z.to_nat (cap - len b))).
(* server/program.go:57-133 _buildProgram with image/build.go:283-298 FinishProgram.  The content is closed by the deferred
   function in case of failure, and explicitly otherwise.  Simplified: which of several failures is reported. *)
Definition build_program (pol : policy) (u : upload) : upload * (failure + (Z * program)) :=
  match take_stream u with
  | (None, u) => (u, inl BadContent)
  | (Some content, u) =>
      let u := close_stream u in
      match module_memory (module_capacity (u_length u)) (s_data content) with
      | None => (u, inl TooLong)
      | Some m =>
          if negb (s_eof content) then (u, inl BadContent)
          else if negb (compiles (s_data content)) then (u, inl BadModule)
          else if text_size (s_data content) >? max_text pol then (u, inl TextTooLong)
          else match u_hash u with
               | Some h => if negb (h =? hash (s_data content)) then (u, inl HashMismatch)
                           else (u, inr (hash (s_data content), Program m (module_capacity (u_length u)) (text_size (s_data content))))
               | None => (u, inr (hash (s_data content), Program m (module_capacity (u_length u)) (text_size (s_data content))))
               end
      end
  end.
(* server/server.go:1095-1130 _registerProgramRef: the program's id is not replaced *)
Definition register_program (h : Z) (p : program) (ps : programs) : programs :=
  match lookup h ps with Some _ => ps | None => ps ++ [(h, p)] end.
(* server/server.go:276-298 _loadUnknownModule *)
Definition load_unknown (pol : policy) (ps : programs) (u : upload) : upload * programs * result :=
  match build_program pol u with
  | (u, inl f) => (u, ps, Failed f)
  | (u, inr (h, p)) => (u, register_program h p ps, Module h)
  end.
(* server/upload.go:25-39 _validate *)
Definition validate (h : Z) (u : upload) : upload * option failure :=
  match u_stream u with
  | None => (u, Some BadContent)
  | Some s =>
      if negb (s_eof s) then (u, Some BadContent)
      else let u := close_stream (snd (take_stream u)) in
           if negb (h =? hash (s_data s)) then (u, Some HashMismatch) else (u, None)
  end.
(* server/server.go:249-274 _loadKnownModule, :1067-1081 _refProgram.  inl: not known *)
Definition load_known (pol : policy) (ps : programs) (h : Z) (u : upload) : upload + (upload * result) :=
  match lookup h ps with
  | None => inl u
  | Some p =>
      if negb (u_length u =? p_size p) then inr (u, Failed SizeMismatch)
      else match validate h u with
           | (u, Some f) => inr (u, Failed f)
           | (u, None) => if p_text p >? max_text pol then inr (u, Failed TextTooLong) else inr (u, Module h)
           end
  end.
(* server/server.go:207-226 UploadModule; also :373-388 _loadModuleInstance, as far as the module is concerned *)
Definition upload_module (pol : policy) (ps : programs) (u : upload) : upload * programs * result :=
  if u_length u >? max_module pol then (u, ps, Failed TooLong)
  else match u_hash u with
       | None => load_unknown pol ps u
       | Some h => match load_known pol ps h u with
                   | inr (u, r) => (u, ps, r)
                   | inl u => load_unknown pol ps u
                   end
       end.
(* server/server.go:228-247 SourceModule, with what the source returned.  Closes: of the stream *)
Definition source_module (pol : policy) (ps : programs) (o : opened * nat) : programs * result * nat :=
  match o with
  | (OpenError, n) => (ps, Failed SourceFailed, n)
  | (NoContent length, n) => (ps, Failed (if length >? 0 then TooLong else NotFound), n)
  | (Content s length, n) =>
      let '(u, ps, r) := load_unknown pol ps (Upload (Some s) length None n) in
      (ps, r, u_closed (close_upload u))
  end.
(* server/server.go:578-614 ModuleContent, image/program.go:79-81 NewModuleReader *)
Definition module_content (ps : programs) (h : Z) : option (bytes * Z) :=
  match lookup h ps with
  | None => None
  | Some p => Some (firstn (Z.to_nat (p_size p)) (p_module p), p_size p)
  end.

(** ** Requests *)

Inductive request :=
  (* PUT: server/web/handler.go:508-513 handlePutKnownModule, :845-858 handleModuleUpload *)
  | Put (key : Z) (encodings : list encoding) (contentLength : Z) (body : stream)
  (* websocket: server/web/handler.go:1050-1071: the key, the call message's content_length, and the next frame *)
  | Frame (key : Z) (contentLength : Z) (frame : stream)
  (* server/web/handler.go:860-873 handleModuleSource *)
  | FromHttp (resp : response)
  | FromIpfs (resp : response).
(* server/web/handler.go: the handlers; upload.Close is deferred.  The last component tells how many times the stream (the decoded
   content, the frame, or the response's body) was closed. *)
Definition uploading (pol : policy) (ps : programs) (s : stream) (length key : Z) : programs * result * nat :=
  let '(u, ps, r) := upload_module pol ps (Upload (Some s) length (Some key) 0) in
  (ps, r, u_closed (close_upload u)).
Definition serve (pol : policy) (ps : programs) (q : request) : programs * result * nat :=
  match q with
  | Put key encodings contentLength body =>
      if contentLength <? 0 then (ps, Failed BadEncoding, 1%nat)
      else match decode_content encodings contentLength body with
           | None => (ps, Failed BadEncoding, 1%nat)
           | Some s => uploading pol ps s contentLength key
           end
  | Frame key contentLength frame => uploading pol ps frame contentLength key
  | FromHttp resp => source_module pol ps (http_open (max_module pol) resp)
  | FromIpfs resp => source_module pol ps (ipfs_open (max_module pol) resp)
  end.
(* A history of requests, possibly with different policies *)
Definition serve_all (l : list (policy * request)) : programs :=
  fold_left (fun ps x => fst (fst (serve (fst x) ps (snd x)))) l [].
End Server.
