(* GuestLib.v: the functions of runtime/abi/library.wat as terms of Wasm.v.
   Generated by tools/wat2coq.py from the file; not edited by hand. *)
From Verif Require Export Wasm.

(* library.wat:19 *)
Definition lib_args_get : func := Func 2 0
  [(Block [(BrIf 0 (Const 1));
  (Call0 RtNop)]);
  (Const 0)].

(* library.wat:26 *)
Definition lib_args_sizes_get : func := Func 2 0
  [(Block [(BrIf 0 (Const 1));
  (Call0 RtNop)]);
  (Store 4 0 (Get 0 (* argc_ptr *)) (Const 0));
  (Store 4 0 (Get 1 (* argvbufsize_ptr *)) (Const 0));
  (Const 0)].

(* library.wat:35 *)
Definition lib_clock_res_get : func := Func 2 0
  [(Block [(BrIf 0 (Const 1));
  (Call0 RtNop)]);
  (If (Bin GeU32 (Get 0 (* id *)) (Const 4)) [(Return (Const 28))] []);
  (Store 8 0 (Get 1 (* buf *)) (Const 1000000000));
  (Const 0)].

(* library.wat:45 *)
Definition lib_clock_time_get : func := Func 3 1
  [(Block [(BrIf 0 (Const 1));
  (Call0 RtNop)]);
  (If (Bin GeU32 (Get 0 (* id *)) (Const 4)) [(Return (Const 28))] []);
  (Block [(Block [(Loop [(BrIf 1 (Bin LtU32 (Get 0 (* id *)) (Const 2)));
  (Set_ 3 (* time *) (Call1 RtStop (Const 127)));
  (BrIf 2 (Bin Ne64 (Get 3 (* time *)) (Const 0)));
  (Br 0)])]);
  (Set_ 3 (* time *) (Call1 RtTime (Bin Add32 (Get 0 (* id *)) (Const 5))))]);
  (Store 8 0 (Get 2 (* buf *)) (Get 3 (* time *)));
  (Const 0)].

(* library.wat:65 *)
Definition lib_environ_get : func := Func 2 0
  [(Block [(BrIf 0 (Const 1));
  (Call0 RtNop)]);
  (Store 8 0 (Get 1 (* envbuf *)) (Const 5278853590672490823));
  (Store 8 8 (Get 1 (* envbuf *)) (Const 5642809480329909855));
  (Store 8 16 (Get 1 (* envbuf *)) (Const 6864985846336991293));
  (Store 8 24 (Get 1 (* envbuf *)) (Const 6071211838874141766));
  (Store 8 32 (Get 1 (* envbuf *)) (Const 4995441244341362501));
  (Store 8 40 (Get 1 (* envbuf *)) (Const 4415034280684504142));
  (Store 8 48 (Get 1 (* envbuf *)) (Const 232787359030));
  (Store 4 0 (Get 0 (* env *)) (Get 1 (* envbuf *)));
  (Store 4 4 (Get 0 (* env *)) (Bin Add32 (Get 1 (* envbuf *)) (Const 19)));
  (Store 4 8 (Get 0 (* env *)) (Bin Add32 (Get 1 (* envbuf *)) (Const 29)));
  (Const 0)].

(* library.wat:82 *)
Definition lib_environ_sizes_get : func := Func 2 0
  [(Block [(BrIf 0 (Const 1));
  (Call0 RtNop)]);
  (Store 4 0 (Get 0 (* envlen_ptr *)) (Const 3));
  (Store 4 0 (Get 1 (* envbufsize_ptr *)) (Const 56));
  (Const 0)].

(* library.wat:91 *)
Definition lib_io : func := Func 7 4
  [(Block [(BrIf 0 (Const 1));
  (Call0 RtNop)]);
  (Set_ 7 (* filter *) (Const 5));
  (If (Bin And32 (Get 6 (* flags *)) (Const 1)) [(Set_ 7 (* filter *) (Call2 RtPoll (Const 1) (If (Get 4 (* sendlen *)) [(Const 4)] [(Const 0)])))] []);
  (Block [(BrIf 0 (Const 1));
  (Call0 RtNop)]);
  (If (Bin And32 (Get 7 (* filter *)) (Const 4)) [(Block [(Loop [(BrIf 1 (Eqz (Get 4 (* sendlen *))));
  (Set_ 9 (* buflen *) (Load 4 4 (Get 3 (* send *))));
  (Set_ 10 (* n *) (Call2 RtWrite (Load 4 0 (Get 3 (* send *))) (Get 9 (* buflen *))));
  (Set_ 8 (* xfer *) (Bin Add32 (Get 8 (* xfer *)) (Get 10 (* n *))));
  (BrIf 1 (Bin Ne32 (Get 10 (* n *)) (Get 9 (* buflen *))));
  (Set_ 3 (* send *) (Bin Add32 (Get 3 (* send *)) (Const 8)));
  (Set_ 4 (* sendlen *) (Bin Sub32 (Get 4 (* sendlen *)) (Const 1)));
  (Br 0)])])] []);
  (If (Get 5 (* nsent_ptr *)) [(Store 4 0 (Get 5 (* nsent_ptr *)) (Get 8 (* xfer *)))] []);
  (Block [(BrIf 0 (Const 1));
  (Call0 RtNop)]);
  (Set_ 8 (* xfer *) (Const 0));
  (If (Bin And32 (Get 7 (* filter *)) (Const 1)) [(Block [(Loop [(BrIf 1 (Eqz (Get 1 (* recvlen *))));
  (Set_ 9 (* buflen *) (Load 4 4 (Get 0 (* recv *))));
  (Set_ 10 (* n *) (Call2 RtRead (Load 4 0 (Get 0 (* recv *))) (Get 9 (* buflen *))));
  (Set_ 8 (* xfer *) (Bin Add32 (Get 8 (* xfer *)) (Get 10 (* n *))));
  (BrIf 1 (Bin Ne32 (Get 10 (* n *)) (Get 9 (* buflen *))));
  (Set_ 0 (* recv *) (Bin Add32 (Get 0 (* recv *)) (Const 8)));
  (Set_ 1 (* recvlen *) (Bin Sub32 (Get 1 (* recvlen *)) (Const 1)));
  (Br 0)])])] []);
  (If (Get 2 (* nrecv_ptr *)) [(Store 4 0 (Get 2 (* nrecv_ptr *)) (Get 8 (* xfer *)))] []);
  (Block [(BrIf 0 (Const 1));
  (Call0 RtNop)])].

(* library.wat:147 *)
Definition lib_fd : func := Func 0 0
  [(Block [(BrIf 0 (Const 1));
  (Call0 RtNop)]);
  (Const 4)].

(* library.wat:152 *)
Definition lib_fd_close : func := Func 1 1
  [(Block [(BrIf 0 (Const 1));
  (Call0 RtNop)]);
  (If (Bin Or32 (Bin Eq32 (Get 0 (* fd *)) (Const 3)) (Bin GeU32 (Get 0 (* fd *)) (Const 5))) [(Return (Const 8))] []);
  (Loop [(Set_ 1 (* result *) (Call1 RtStop (Const 127)));
  (If (Bin Eq64 (Get 1 (* result *)) (Const 0)) [(Br 1)] [])]);
  (Wrap (Get 1 (* result *)))].

(* library.wat:166 *)
Definition lib_fd_fdstat_get : func := Func 2 2
  [(Block [(BrIf 0 (Const 1));
  (Call0 RtNop)]);
  (Block [(BrIf 0 (Const 1));
  (Call0 RtNop)]);
  (If (Bin Or32 (Bin Eq32 (Get 0 (* fd *)) (Const 3)) (Bin GeU32 (Get 0 (* fd *)) (Const 5))) [(Return (Const 8))] []);
  (If (Bin Or32 (Bin Eq32 (Get 0 (* fd *)) (Const 1)) (Bin Eq32 (Get 0 (* fd *)) (Const 2))) [(Set_ 3 (* rights *) (Const 64))] []);
  (If (Bin Eq32 (Get 0 (* fd *)) (Const 4)) [(Set_ 2 (* flags *) (Const 4));
  (Set_ 3 (* rights *) (Const 66))] []);
  (Store 1 0 (Get 1 (* buf *)) (Const 0));
  (Store 2 2 (Get 1 (* buf *)) (Get 2 (* flags *)));
  (Store 8 8 (Get 1 (* buf *)) (Get 3 (* rights *)));
  (Store 8 16 (Get 1 (* buf *)) (Const 0));
  (Const 0)].

(* library.wat:189 *)
Definition lib_fd_fdstat_set_flags : func := Func 2 0
  [(Block [(BrIf 0 (Const 1));
  (Call0 RtNop)]);
  (If (Bin Or32 (Bin Eq32 (Get 0 (* fd *)) (Const 3)) (Bin GeU32 (Get 0 (* fd *)) (Const 5))) [(Return (Const 8))] []);
  (Const 63)].

(* library.wat:199 *)
Definition lib_fd_fdstat_set_rights : func := Func 3 1
  [(Block [(BrIf 0 (Const 1));
  (Call0 RtNop)]);
  (If (Bin Or32 (Bin Eq32 (Get 0 (* fd *)) (Const 3)) (Bin GeU32 (Get 0 (* fd *)) (Const 5))) [(Return (Const 8))] []);
  (If (Bin Ne64 (Get 2 (* inheriting *)) (Const 0)) [(Return (Const 76))] []);
  (If (Eqz (Get 0 (* fd *))) [(If (Bin Eq64 (Get 1 (* base *)) (Const 0)) [(Return (Const 0))] [(Return (Const 76))])] []);
  (If (Bin Or32 (Bin Eq32 (Get 0 (* fd *)) (Const 1)) (Bin Eq32 (Get 0 (* fd *)) (Const 2))) [(If (Bin Eq64 (Get 1 (* base *)) (Const 64)) [(Return (Const 0))] []);
  (If (Bin Ne64 (Get 1 (* base *)) (Const 0)) [(Return (Const 76))] [])] []);
  (If (Bin Eq32 (Get 0 (* fd *)) (Const 4)) [(If (Bin Eq64 (Get 1 (* base *)) (Const 66)) [(Return (Const 0))] []);
  (If (Bin Ne64 (Bin And64 (Get 1 (* base *)) (Const 18446744073709551549)) (Const 0)) [(Return (Const 76))] [])] []);
  (Loop [(Set_ 3 (* result *) (Call1 RtStop (Const 127)));
  (If (Bin Eq64 (Get 3 (* result *)) (Const 0)) [(Br 1)] [])]);
  (Wrap (Get 3 (* result *)))].

(* library.wat:233 *)
Definition lib_fd_filestat_get : func := Func 2 0
  [(Block [(BrIf 0 (Const 1));
  (Call0 RtNop)]);
  (If (Bin Or32 (Bin Eq32 (Get 0 (* fd *)) (Const 3)) (Bin GeU32 (Get 0 (* fd *)) (Const 5))) [(Return (Const 8))] []);
  (Store 8 0 (Get 1 (* buf *)) (Const 0));
  (Store 8 8 (Get 1 (* buf *)) (Const 0));
  (Store 1 16 (Get 1 (* buf *)) (Const 0));
  (Store 4 20 (Get 1 (* buf *)) (Const 0));
  (Store 4 24 (Get 1 (* buf *)) (Const 0));
  (Store 8 32 (Get 1 (* buf *)) (Const 0));
  (Store 8 40 (Get 1 (* buf *)) (Const 0));
  (Store 8 48 (Get 1 (* buf *)) (Const 0));
  (Const 0)].

(* library.wat:251 *)
Definition lib_fd_read : func := Func 4 3
  [(Block [(BrIf 0 (Const 1));
  (Call0 RtNop)]);
  (If (Bin Or32 (Bin Eq32 (Get 0 (* fd *)) (Const 3)) (Bin GeU32 (Get 0 (* fd *)) (Const 5))) [(Return (Const 8))] []);
  (If (Eqz (Get 0 (* fd *))) [(Return (Const 63))] []);
  (If (Bin Ne32 (Get 0 (* fd *)) (Const 4)) [(Return (Const 28))] []);
  (Block [(Loop [(BrIf 1 (Eqz (Get 2 (* iovlen *))));
  (Set_ 5 (* buflen *) (Load 4 4 (Get 1 (* iov *))));
  (Set_ 6 (* n *) (Call2 RtRead (Load 4 0 (Get 1 (* iov *))) (Get 5 (* buflen *))));
  (Set_ 4 (* nread *) (Bin Add32 (Get 4 (* nread *)) (Get 6 (* n *))));
  (BrIf 1 (Bin Ne32 (Get 6 (* n *)) (Get 5 (* buflen *))));
  (Set_ 1 (* iov *) (Bin Add32 (Get 1 (* iov *)) (Const 8)));
  (Set_ 2 (* iovlen *) (Bin Sub32 (Get 2 (* iovlen *)) (Const 1)));
  (Br 0)])]);
  (Store 4 0 (Get 3 (* nread_ptr *)) (Get 4 (* nread *)));
  (If (Get 4 (* nread *)) [(Return (Const 0))] []);
  (Block [(BrIf 0 (Const 1));
  (Call0 RtNop)]);
  (Const 6)].

(* library.wat:286 *)
Definition lib_fd_renumber : func := Func 2 1
  [(Block [(BrIf 0 (Const 1));
  (Call0 RtNop)]);
  (If (Bin Or32 (Bin Or32 (Bin Eq32 (Get 0 (* from *)) (Const 3)) (Bin GeU32 (Get 0 (* from *)) (Const 5))) (Bin Or32 (Bin Eq32 (Get 1 (* to *)) (Const 3)) (Bin GeU32 (Get 1 (* to *)) (Const 5)))) [(Return (Const 8))] []);
  (If (Bin Eq32 (Get 0 (* from *)) (Get 1 (* to *))) [(Return (Const 0))] []);
  (Loop [(Set_ 2 (* result *) (Call1 RtStop (Const 127)));
  (If (Bin Eq64 (Get 2 (* result *)) (Const 0)) [(Br 1)] [])]);
  (Wrap (Get 2 (* result *)))].

(* library.wat:305 *)
Definition lib_fd_stub_i32 : func := Func 1 0
  [(Block [(BrIf 0 (Const 1));
  (Call0 RtNop)]);
  (If (Bin Or32 (Bin Eq32 (Get 0 (* fd *)) (Const 3)) (Bin GeU32 (Get 0 (* fd *)) (Const 5))) [(Return (Const 8))] []);
  (Const 70)].

(* library.wat:314 *)
Definition lib_fd_stub_i32i32 : func := Func 2 0
  [(Block [(BrIf 0 (Const 1));
  (Call0 RtNop)]);
  (If (Bin Or32 (Bin Eq32 (Get 0 (* fd *)) (Const 3)) (Bin GeU32 (Get 0 (* fd *)) (Const 5))) [(Return (Const 8))] []);
  (Const 70)].

(* library.wat:324 *)
Definition lib_fd_stub_i32i64 : func := Func 2 0
  [(Block [(BrIf 0 (Const 1));
  (Call0 RtNop)]);
  (If (Bin Or32 (Bin Eq32 (Get 0 (* fd *)) (Const 3)) (Bin GeU32 (Get 0 (* fd *)) (Const 5))) [(Return (Const 8))] []);
  (Const 70)].

(* library.wat:334 *)
Definition lib_fd_stub_i32i32i32 : func := Func 3 0
  [(Block [(BrIf 0 (Const 1));
  (Call0 RtNop)]);
  (If (Bin Or32 (Bin Eq32 (Get 0 (* fd *)) (Const 3)) (Bin GeU32 (Get 0 (* fd *)) (Const 5))) [(Return (Const 8))] []);
  (Const 70)].

(* library.wat:344 *)
Definition lib_fd_stub_i32i64i64 : func := Func 3 0
  [(Block [(BrIf 0 (Const 1));
  (Call0 RtNop)]);
  (If (Bin Or32 (Bin Eq32 (Get 0 (* fd *)) (Const 3)) (Bin GeU32 (Get 0 (* fd *)) (Const 5))) [(Return (Const 8))] []);
  (Const 70)].

(* library.wat:354 *)
Definition lib_fd_stub_i32i64i32i32 : func := Func 4 0
  [(Block [(BrIf 0 (Const 1));
  (Call0 RtNop)]);
  (If (Bin Or32 (Bin Eq32 (Get 0 (* fd *)) (Const 3)) (Bin GeU32 (Get 0 (* fd *)) (Const 5))) [(Return (Const 8))] []);
  (Const 70)].

(* library.wat:364 *)
Definition lib_fd_stub_i32i64i64i32 : func := Func 4 0
  [(Block [(BrIf 0 (Const 1));
  (Call0 RtNop)]);
  (If (Bin Or32 (Bin Eq32 (Get 0 (* fd *)) (Const 3)) (Bin GeU32 (Get 0 (* fd *)) (Const 5))) [(Return (Const 8))] []);
  (Const 70)].

(* library.wat:374 *)
Definition lib_fd_stub_i32i32i32i64i32 : func := Func 5 0
  [(Block [(BrIf 0 (Const 1));
  (Call0 RtNop)]);
  (If (Bin Or32 (Bin Eq32 (Get 0 (* fd *)) (Const 3)) (Bin GeU32 (Get 0 (* fd *)) (Const 5))) [(Return (Const 8))] []);
  (Const 70)].

(* library.wat:384 *)
Definition lib_fd_write : func := Func 4 3
  [(Block [(BrIf 0 (Const 1));
  (Call0 RtNop)]);
  (If (Bin Or32 (Bin Eq32 (Get 0 (* fd *)) (Const 3)) (Bin GeU32 (Get 0 (* fd *)) (Const 5))) [(Return (Const 8))] []);
  (If (Eqz (Get 0 (* fd *))) [(Return (Const 28))] []);
  (Block [(If (Bin Eq32 (Get 0 (* fd *)) (Const 4)) [(Loop [(BrIf 2 (Eqz (Get 2 (* iovlen *))));
  (Set_ 5 (* buflen *) (Load 4 4 (Get 1 (* iov *))));
  (Set_ 6 (* n *) (Call2 RtWrite (Load 4 0 (Get 1 (* iov *))) (Get 5 (* buflen *))));
  (Set_ 4 (* nwritten *) (Bin Add32 (Get 4 (* nwritten *)) (Get 6 (* n *))));
  (BrIf 2 (Bin Ne32 (Get 6 (* n *)) (Get 5 (* buflen *))));
  (Set_ 1 (* iov *) (Bin Add32 (Get 1 (* iov *)) (Const 8)));
  (Set_ 2 (* iovlen *) (Bin Sub32 (Get 2 (* iovlen *)) (Const 1)));
  (Br 0)])] [(Loop [(BrIf 2 (Eqz (Get 2 (* iovlen *))));
  (Set_ 5 (* buflen *) (Load 4 4 (Get 1 (* iov *))));
  (Call2 RtDebug (Load 4 0 (Get 1 (* iov *))) (Get 5 (* buflen *)));
  (Set_ 4 (* nwritten *) (Bin Add32 (Get 4 (* nwritten *)) (Get 5 (* buflen *))));
  (Set_ 1 (* iov *) (Bin Add32 (Get 1 (* iov *)) (Const 8)));
  (Set_ 2 (* iovlen *) (Bin Sub32 (Get 2 (* iovlen *)) (Const 1)));
  (Br 0)])])]);
  (Store 4 0 (Get 3 (* nwritten_ptr *)) (Get 4 (* nwritten *)));
  (If (Get 4 (* nwritten *)) [(Return (Const 0))] []);
  (Block [(BrIf 0 (Const 1));
  (Call0 RtNop)]);
  (Const 6)].

(* library.wat:428 *)
Definition lib_path_stub_i32i32i32 : func := Func 3 0
  [(Block [(BrIf 0 (Const 1));
  (Call0 RtNop)]);
  (Const 44)].

(* library.wat:434 *)
Definition lib_path_stub_i32i32i32i32i32 : func := Func 5 0
  [(Block [(BrIf 0 (Const 1));
  (Call0 RtNop)]);
  (Const 44)].

(* library.wat:440 *)
Definition lib_path_stub_i32i32i32i32i32i32 : func := Func 6 0
  [(Block [(BrIf 0 (Const 1));
  (Call0 RtNop)]);
  (Const 44)].

(* library.wat:446 *)
Definition lib_path_stub_i32i32i32i32i32i32i32 : func := Func 7 0
  [(Block [(BrIf 0 (Const 1));
  (Call0 RtNop)]);
  (Const 44)].

(* library.wat:452 *)
Definition lib_path_stub_i32i32i32i32i64i64i32 : func := Func 7 0
  [(Block [(BrIf 0 (Const 1));
  (Call0 RtNop)]);
  (Const 44)].

(* library.wat:458 *)
Definition lib_path_stub_i32i32i32i32i32i64i64i32i32 : func := Func 9 0
  [(Block [(BrIf 0 (Const 1));
  (Call0 RtNop)]);
  (Const 44)].

(* library.wat:464 *)
Definition lib_poll_oneoff : func := Func 4 8
  [(Block [(BrIf 0 (Const 1));
  (Call0 RtNop)]);
  (Block [(Loop [(BrIf 1 (Eqz (Get 2 (* nsub *))));
  (Set_ 4 (* type *) (Load 1 8 (Get 0 (* sub_ptr *))));
  (If (Bin GeU32 (Get 4 (* type *)) (Const 3)) [(Return (Const 28))] []);
  (If (Eqz (Get 4 (* type *))) [(Drop (Call1 RtStop (Const 127)));
  (Br 1)] []);
  (Set_ 5 (* fd *) (Load 4 16 (Get 0 (* sub_ptr *))));
  (If (Bin Eq32 (Get 5 (* fd *)) (Const 4)) [(If (Bin Eq32 (Get 4 (* type *)) (Const 1)) [(Set_ 6 (* reading *) (Const 1));
  (Set_ 8 (* read_userdata *) (Load 8 0 (Get 0 (* sub_ptr *))))] []);
  (If (Bin Eq32 (Get 4 (* type *)) (Const 2)) [(Set_ 7 (* writing *) (Const 4));
  (Set_ 9 (* write_userdata *) (Load 8 0 (Get 0 (* sub_ptr *))))] [])] [(If (Bin GeU32 (Get 5 (* fd *)) (Const 3)) [(Store 8 0 (Get 1 (* out_ptr *)) (Load 8 0 (Get 0 (* sub_ptr *))));
  (Store 2 8 (Get 1 (* out_ptr *)) (Const 8));
  (Set_ 1 (* out_ptr *) (Bin Add32 (Get 1 (* out_ptr *)) (Const 32)));
  (Set_ 11 (* nout *) (Bin Add32 (Get 11 (* nout *)) (Const 1)))] [])]);
  (If (Bin And32 (Bin Or32 (Bin Eq32 (Get 5 (* fd *)) (Const 1)) (Bin Eq32 (Get 5 (* fd *)) (Const 2))) (Bin Eq32 (Get 4 (* type *)) (Const 2))) [(Store 8 0 (Get 1 (* out_ptr *)) (Load 8 0 (Get 0 (* sub_ptr *))));
  (Store 2 8 (Get 1 (* out_ptr *)) (Const 0));
  (Store 1 10 (Get 1 (* out_ptr *)) (Const 2));
  (Store 8 16 (Get 1 (* out_ptr *)) (Const 1));
  (Store 2 24 (Get 1 (* out_ptr *)) (Const 0));
  (Set_ 1 (* out_ptr *) (Bin Add32 (Get 1 (* out_ptr *)) (Const 32)));
  (Set_ 11 (* nout *) (Bin Add32 (Get 11 (* nout *)) (Const 1)))] []);
  (Set_ 0 (* sub_ptr *) (Bin Add32 (Get 0 (* sub_ptr *)) (Const 56)));
  (Set_ 2 (* nsub *) (Bin Sub32 (Get 2 (* nsub *)) (Const 1)));
  (Br 0)])]);
  (Set_ 10 (* result *) (Call2 RtPoll (Get 6 (* reading *)) (Get 7 (* writing *))));
  (If (Bin And32 (Get 10 (* result *)) (Const 1)) [(Store 8 0 (Get 1 (* out_ptr *)) (Get 8 (* read_userdata *)));
  (Store 2 8 (Get 1 (* out_ptr *)) (Const 0));
  (Store 1 10 (Get 1 (* out_ptr *)) (Const 1));
  (Store 8 16 (Get 1 (* out_ptr *)) (Const 65536));
  (Store 2 24 (Get 1 (* out_ptr *)) (Const 0));
  (Set_ 1 (* out_ptr *) (Bin Add32 (Get 1 (* out_ptr *)) (Const 32)));
  (Set_ 11 (* nout *) (Bin Add32 (Get 11 (* nout *)) (Const 1)))] []);
  (If (Bin And32 (Get 10 (* result *)) (Const 4)) [(Store 8 0 (Get 1 (* out_ptr *)) (Get 9 (* write_userdata *)));
  (Store 2 8 (Get 1 (* out_ptr *)) (Const 0));
  (Store 1 10 (Get 1 (* out_ptr *)) (Const 2));
  (Store 8 16 (Get 1 (* out_ptr *)) (Const 65536));
  (Store 2 24 (Get 1 (* out_ptr *)) (Const 0));
  (Set_ 1 (* out_ptr *) (Bin Add32 (Get 1 (* out_ptr *)) (Const 32)));
  (Set_ 11 (* nout *) (Bin Add32 (Get 11 (* nout *)) (Const 1)))] []);
  (Store 4 0 (Get 3 (* nout_ptr *)) (Get 11 (* nout *)));
  (Block [(BrIf 0 (Const 1));
  (Call0 RtNop)]);
  (Const 0)].

(* library.wat:537 *)
Definition lib_proc_exit : func := Func 1 0
  [(Block [(BrIf 0 (Const 1));
  (Call0 RtNop)]);
  (Set_ 0 (* status *) (Bin Or32 (Bin Ne32 (Get 0 (* status *)) (Const 0)) (Const 2)));
  (Loop [(Drop (Call1 RtStop (Get 0 (* status *))));
  (Br 0)])].

(* library.wat:546 *)
Definition lib_proc_raise : func := Func 1 0
  [(Block [(BrIf 0 (Const 1));
  (Call0 RtNop)]);
  (Wrap (Call1 RtStop (Const 127)))].

(* library.wat:552 *)
Definition lib_random_get : func := Func 2 2
  [(Block [(BrIf 0 (Const 1));
  (Call0 RtNop)]);
  (Block [(Loop [(If (Eqz (Get 1 (* len *))) [(Br 2)] []);
  (Set_ 3 (* value *) (Call0 RtRandom));
  (If (Bin GeS32 (Get 3 (* value *)) (Const 0)) [(Store 1 0 (Get 0 (* buf *)) (Get 3 (* value *)));
  (Set_ 0 (* buf *) (Bin Add32 (Get 0 (* buf *)) (Const 1)));
  (Set_ 1 (* len *) (Bin Sub32 (Get 1 (* len *)) (Const 1)))] [(Set_ 2 (* result *) (Call1 RtStop (Const 127)));
  (If (Bin Ne64 (Get 2 (* result *)) (Const 0)) [(Br 3)] [])]);
  (Br 0)])]);
  (Wrap (Get 2 (* result *)))].

(* library.wat:574 *)
Definition lib_sched_yield : func := Func 0 0
  [(Block [(BrIf 0 (Const 1));
  (Call0 RtNop)]);
  (Const 0)].

(* library.wat:579 *)
Definition lib_sock_recv : func := Func 6 0
  [(Block [(BrIf 0 (Const 1));
  (Call0 RtNop)]);
  (If (Bin Or32 (Bin Eq32 (Get 0 (* fd *)) (Const 3)) (Bin GeU32 (Get 0 (* fd *)) (Const 5))) [(Return (Const 8))] []);
  (Const 57)].

(* library.wat:589 *)
Definition lib_sock_send : func := Func 5 0
  [(Block [(BrIf 0 (Const 1));
  (Call0 RtNop)]);
  (If (Bin Or32 (Bin Eq32 (Get 0 (* fd *)) (Const 3)) (Bin GeU32 (Get 0 (* fd *)) (Const 5))) [(Return (Const 8))] []);
  (Const 57)].

(* library.wat:599 *)
Definition lib_sock_shutdown : func := Func 2 0
  [(Block [(BrIf 0 (Const 1));
  (Call0 RtNop)]);
  (If (Bin Or32 (Bin Eq32 (Get 0 (* fd *)) (Const 3)) (Bin GeU32 (Get 0 (* fd *)) (Const 5))) [(Return (Const 8))] []);
  (Const 57)].

