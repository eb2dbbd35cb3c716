(* IoLoop.v: model of runtime/io.go: framing of packets on the pipes of a
   process, buffering over suspension, validation, and the I/O loop. *)
From Verif Require Export Packet.

(* runtime/runtime.go:9 *)
Definition maxPacketSize := 65536.

(* A pipe being read: the chunks which successive read system calls have
   available, then end of file.  io.ReadFull(r, buf) with len(buf) = n: the bytes
   read and the pipe after; fewer than n bytes if the end was met. *)
Fixpoint read_full (n : nat) (pipe : list bytes) : bytes * list bytes :=
  match n, pipe with
  | O, _ => ([], pipe)
  | _, [] => ([], [])
  | _, c :: t =>
      if Nat.leb (length c) n then let '(b, p) := read_full (n - length c) t in (c ++ b, p)
      else (firstn n c, skipn n c :: t)
  end.

(* io.ReadFull's error when it has read fewer bytes than asked *)
Inductive rerr := REOF | RUnexpected | RBadSize.
Definition short (got : bytes) : rerr := match got with [] => REOF | _ => RUnexpected end.

(* runtime/io.go:52-55 *)
Inductive rd := RPacket (buf : bytes) | REnd (buf : bytes) (e : rerr).

(* runtime/io.go:247-278, one iteration; the second result is the pipe left *)
Definition read_one (partial : bytes) (pipe : list bytes) : rd * list bytes :=
  let '(h, pipe) := read_full (HeaderSize - length partial) pipe in
  let header := firstn HeaderSize partial ++ h in
  if Nat.ltb (length header) HeaderSize then (REnd header (short h), pipe)
  else
    let size := unle (firstn 4 header) in
    if (size <? 8) || (size >? maxPacketSize) then (REnd [] RBadSize, pipe)
    else
      let asize := Z.to_nat (Align size) in
      let buf := header ++ firstn (asize - HeaderSize) (skipn HeaderSize partial) in
      let '(b, pipe) := read_full (asize - length buf) pipe in
      if Nat.ltb (length (buf ++ b)) asize then (REnd (buf ++ b) (short b), pipe)
      else (RPacket (firstn (Z.to_nat size) (buf ++ b)), pipe).

(* runtime/io.go:239-283 subjectReadLoop: the packets sent on the channel and
   the final read with its error.  The fuel bounds the number of iterations;
   each takes at least a header from the pipe (see [reads]). *)
Fixpoint read_loop (fuel : nat) (partial : bytes) (pipe : list bytes) : list bytes * (bytes * rerr) :=
  match fuel with
  | O => ([], ([], RUnexpected))
  | S k =>
      match read_one partial pipe with
      | (RPacket p, pipe) => let '(ps, e) := read_loop k [] pipe in (p :: ps, e)
      | (REnd b e, _) => ([], (b, e))
      end
  end.
Definition reads (partial : bytes) (pipe : list bytes) : list bytes * (bytes * rerr) :=
  read_loop (S (length partial + length (concat pipe))) partial pipe.

(* runtime/io.go:296-299: the padding bytes added by subjectWriteLoop;
   &^ 8 on uint64 *)
Definition pad_len (n : Z) : Z := Z.land (8 - Z.land n 7) (Z.lnot 8).
Definition padded (p : bytes) : bytes := p ++ zeros (Z.to_nat (pad_len (len p))).
(* what subjectWriteLoop writes for the packets sent to it *)
Definition write_loop (ps : list bytes) : bytes := concat (map padded ps).

(* runtime/io.go:309-326 initMessagePacket *)
Definition initMessagePacket (p : bytes) : res bytes :=
  if (len p <? 8) || (len p >? maxPacketSize) then Panic
  else
    do c <- Code p;
    if c <? 0 then Panic
    else
      do n <- EncodedSize p;
      if n =? u32 (len p) then Ok p else SetSize p.

(* runtime/io.go:386-408 checkServicePacket; n: discoverer.NumServices() *)
Definition checkServicePacket (n : Z) (p : bytes) : res bytes :=
  do c <- Code p;
  if c >=? n then Err
  else
    do d <- Domain p;
    if (d =? DomainCall) || (d =? DomainInfo) || (d =? DomainFlow) then Ok p
    else if d =? DomainData then (if len p <? Z.of_nat DataHeaderSize then Err else Ok p)
    else Err.

(* runtime/io.go:328-348 handlePacket.  [HServices]: passed to
   handleServicesPacket (Discovery.v). *)
Inductive handled := HMessage (p : bytes) | HServices (p : bytes).
Definition CodeServices := -1.   (* packet/packet.go:17 *)
Definition handlePacket (n : Z) (p : bytes) : res handled :=
  do c <- Code p;
  if c >=? 0 then do m <- checkServicePacket n p; Ok (HMessage m)
  else if c =? CodeServices then Ok (HServices p)
  else Err.

(* runtime/io.go:350-384 splitBufferedPackets; fuel as above *)
Fixpoint split_loop (fuel : nat) (n : Z) (buf : bytes) : res (list bytes * bytes) :=
  match fuel with
  | O => Err
  | S k =>
      if Nat.ltb (length buf) HeaderSize then Ok ([], buf)
      else
        let size := unle (firstn 4 buf) in
        if (size <? 8) || (size >? maxPacketSize) then Err
        else if u32 (len buf) <? size then Ok ([], buf)
        else
          let p := firstn (Z.to_nat size) buf in
          do c <- Code p;
          if c <? 0 then Err
          else
            do p <- checkServicePacket n p;
            do ' (ms, tail) <- split_loop k n (skipn (Z.to_nat size) buf);
            Ok (p :: ms, tail)
  end.
Definition splitBufferedPackets (n : Z) (buf : bytes) : res (list bytes * bytes) := split_loop (S (length buf)) n buf.

(* The I/O loop, runtime/io.go:57-237.  State: pendingMsgs, pendingEvs, whether
   dead has been observed, the number of discovered services, what the read
   loop has still to deliver; observation: packets delivered to the services,
   packets handed to the write loop; the outcome when returned. *)
Inductive outcome :=
| OFrozen (output : bytes) (evs : bytes)   (* saved Output; saved Input is what the
                                              process has not read, then [evs] *)
| OFailed.                                 (* ioLoop returns an error *)

Record io := IO {
  msgs : list bytes; evs : list bytes; dead : bool; nsvc : Z;
  inbox : list bytes; ending : bytes * rerr;
  delivered : list bytes; written : list bytes; result : option outcome }.

Inductive ioev :=
| IMessage (p : bytes)                     (* <-doMessageInput *)
| IRead (reply : option (bytes * nat))     (* <-doSubjectInput; for a services packet, the
                                              reply and the number of services added, or an error *)
| IDeliver                                 (* doMessageOutput <- nextMsg *)
| IWrite                                   (* doSubjectOutput <- nextEv *)
| IDead.                                   (* <-dead *)
(* The other cases (suspended, done, serviceDone closed) do not change this
   state; a service error makes the loop return an error at any time. *)

Definition may_read (s : io) : bool :=
  match msgs s, evs s with [], [] => true | _, _ => dead s end.

Definition fail (s : io) : io :=
  IO (msgs s) (evs s) (dead s) (nsvc s) (inbox s) (ending s) (delivered s) (written s) (Some OFailed).

(* None: not enabled.  A panic (initMessagePacket) has no successor either: see
   [service_packet_panics]. *)
Definition io_step (s : io) (e : ioev) : option io :=
  match result s with
  | Some _ => None
  | None =>
    match e with
    | IMessage p =>        (* lines 139-141, 154-155 *)
        match evs s with
        | [] =>
            match initMessagePacket p with
            | Ok q => Some (IO (msgs s) [q] (dead s) (nsvc s) (inbox s) (ending s) (delivered s) (written s) None)
            | _ => None
            end
        | _ => None
        end
    | IRead reply =>       (* lines 145-147, 157-209 *)
        if may_read s then
          match inbox s with
          | [] =>
              match ending s with
              | (b, REOF) => Some (IO (msgs s) (evs s) (dead s) (nsvc s) [] (ending s) (delivered s) (written s)
                                      (Some (OFrozen (concat (msgs s) ++ b) (concat (evs s)))))
              | _ => Some (fail s)
              end
          | p :: t =>
              match handlePacket (nsvc s) p with
              | Ok (HMessage m) => Some (IO (msgs s ++ [m]) (evs s) (dead s) (nsvc s) t (ending s) (delivered s) (written s) None)
              | Ok (HServices _) =>
                  match reply with
                  | Some (r, n) => Some (IO (msgs s) (evs s ++ [r]) (dead s) (nsvc s + Z.of_nat n) t (ending s) (delivered s) (written s) None)
                  | None => Some (fail s)
                  end
              | _ => Some (fail s)
              end
          end
        else None
    | IDeliver =>          (* lines 142-144, 211-212 *)
        match msgs s with
        | [] => None
        | m :: t => Some (IO t (evs s) (dead s) (nsvc s) (inbox s) (ending s) (delivered s ++ [m]) (written s) None)
        end
    | IWrite =>            (* lines 148-150, 214-215 *)
        match evs s with
        | [] => None
        | v :: t => Some (IO (msgs s) t (dead s) (nsvc s) (inbox s) (ending s) (delivered s) (written s ++ [v]) None)
        end
    | IDead => Some (IO (msgs s) (evs s) true (nsvc s) (inbox s) (ending s) (delivered s) (written s) None)
    end
  end.

Fixpoint io_run (s : io) (es : list ioev) : option io :=
  match es with
  | [] => Some s
  | e :: t => match io_step s e with Some s' => io_run s' t | None => None end
  end.

(* Start of the loop, lines 88-105: saved Output and Input, the number of
   services and the services packet for their states (None: no services), and
   the pipe from the process. *)
Definition io_start (output input : bytes) (n : Z) (services : option bytes) (pipe : list bytes) : res io :=
  do ' (ms, tail) <- splitBufferedPackets n output;
  let '(ps, e) := reads tail pipe in
  Ok (IO ms ((match input with [] => [] | _ => [input] end) ++ (match services with Some p => [p] | None => [] end))
         false n ps e [] [] None).
