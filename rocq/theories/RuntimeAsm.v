(* RuntimeAsm.v: runtime/loader/x86_64/runtime.S as terms of Asm.v (macros expanded; not Android).
   Generated by tools/asm2coq.py from the file; not edited by hand. *)
From Verif Require Export Asm.

(* Indexes of labels *)
Notation L_runtime_code_begin := 0%nat (only parsing).
Notation L_Lseccomp_filter := 1%nat (only parsing).
Notation L_runtime_init := 3%nat (only parsing).
Notation L_runtime_init_no_sandbox := 22%nat (only parsing).
Notation L_signal_handler := 45%nat (only parsing).
Notation L_Ldo_not_modify_suspend_reg := 56%nat (only parsing).
Notation L_Lsigsegv := 58%nat (only parsing).
Notation L_Lsigsegv_exit := 66%nat (only parsing).
Notation L_signal_restorer := 68%nat (only parsing).
Notation L_trap_handler := 71%nat (only parsing).
Notation L_Ltrap_exit := 78%nat (only parsing).
Notation L_Ltrap_call_stack_exhausted := 82%nat (only parsing).
Notation L_Ltrap_suspended := 86%nat (only parsing).
Notation L_current_memory := 88%nat (only parsing).
Notation L_grow_memory := 94%nat (only parsing).
Notation L_Lgrow_memory_done := 116%nat (only parsing).
Notation L_Loom := 123%nat (only parsing).
Notation L_rt_nop := 125%nat (only parsing).
Notation L_Lresume := 126%nat (only parsing).
Notation L_retpoline := 127%nat (only parsing).
Notation L_Lretpoline_capture := 128%nat (only parsing).
Notation L_Lretpoline_setup := 130%nat (only parsing).
Notation L_rt_poll := 133%nat (only parsing).
Notation L_Lpoll_revents := 159%nat (only parsing).
Notation L_rt_read := 169%nat (only parsing).
Notation L_rt_write := 198%nat (only parsing).
Notation L_Lout_of_bounds := 227%nat (only parsing).
Notation L_rt_time := 229%nat (only parsing).
Notation L_Ltime := 230%nat (only parsing).
Notation L_Lnot_suspended := 255%nat (only parsing).
Notation L_rt_random := 277%nat (only parsing).
Notation L_Lno_random := 288%nat (only parsing).
Notation L_rt_stop := 290%nat (only parsing).
Notation L_Lexit := 291%nat (only parsing).
Notation L_Lexit_time := 296%nat (only parsing).
Notation L_sys_exit := 304%nat (only parsing).
Notation L_rt_debug := 307%nat (only parsing).
Notation L_Ldebugged_some := 335%nat (only parsing).
Notation L_runtime_code_end := 340%nat (only parsing).

(* runtime.S:71-586; the number of the line precedes each instruction *)
Definition runtime : list ins := [
  (* 74 runtime_code_begin: *) Int3;
  (* 78 .Lseccomp_filter: *) Int3;
  (* 80 *) Int3;
  (* 94 runtime_init: *) Mov 8 (I 8589934592) (R rdi);
  (* 95 *) Mov 4 (I 65536) (R rsi);
  (* 96 *) Mov 4 (I 11) (R rax);
  (* 97 *) Syscall;
  (* 98 *) Mov 4 (I 34) (R rdi);
  (* 99 *) Test 4 (R rax) (R rax);
  (* 100 *) Jcc CNE L_sys_exit;
  (* 104 *) Lea (M rsp None (-16)) rdx;
  (* 105 *) Mov 8 (I 16) (R rax);
  (* 106 *) Mov 8 (R rax) (M rdx None 0);
  (* 107 *) LeaCode L_Lseccomp_filter rax;
  (* 108 *) Mov 8 (R rax) (M rdx None 8);
  (* 112 *) Mov 4 (I 1) (R rdi);
  (* 113 *) Alu Xor 4 (R rsi) (R rsi);
  (* 114 *) Mov 4 (I 317) (R rax);
  (* 115 *) Syscall;
  (* 116 *) Mov 4 (I 35) (R rdi);
  (* 117 *) Test 4 (R rax) (R rax);
  (* 118 *) Jcc CNE L_sys_exit;
  (* 126 runtime_init_no_sandbox: *) Mov 4 (I 102) (R rdi);
  (* 127 *) Test 4 (I 1) (R rbx);
  (* 128 *) Jcc CNE L_sys_exit;
  (* 135 *) Mov 8 (I 13835058055282163710) (R rax);
  (* 135 *) Mov 8 (R rbx) (R rcx);
  (* 135 *) Alu And 8 (R rax) (R rcx);
  (* 135 *) Alu Sub 8 (I 9984) (R rcx);
  (* 136 *) Mov 4 (I 4294967295) (M rcx None 0);
  (* 140 *) Alu Xor 4 (R rax) (R rax);
  (* 141 *) Alu Xor 4 (R rdx) (R rdx);
  (* 142 *) Alu Xor 4 (R rbp) (R rbp);
  (* 143 *) Alu Xor 4 (R rsi) (R rsi);
  (* 144 *) Alu Xor 4 (R rdi) (R rdi);
  (* 145 *) Alu Xor 4 (R r8) (R r8);
  (* 146 *) Alu Xor 4 (R r9) (R r9);
  (* 147 *) Alu Xor 4 (R r10) (R r10);
  (* 148 *) Alu Xor 4 (R r11) (R r11);
  (* 149 *) Alu Xor 4 (R r12) (R r12);
  (* 150 *) Alu Xor 4 (R r13) (R r13);
  (* 151 *) Alu Xor 4 (R r14) (R r14);
  (* 155 *) Mov 8 (R r15) (R rcx);
  (* 156 *) Alu And 8 (I 18446744073709551488) (R r15);
  (* 157 *) Jmp L_retpoline;
  (* 167 signal_handler: *) Cmp 4 (I 11) (R rdi);
  (* 168 *) Jcc CE L_Lsigsegv;
  (* 170 *) Mov 8 (M rdx None 128) (R rbx);
  (* 171 *) Mov 8 (I 13835058055282163710) (R rax);
  (* 171 *) Mov 8 (R rbx) (R rcx);
  (* 171 *) Alu And 8 (R rax) (R rcx);
  (* 171 *) Alu Sub 8 (I 9984) (R rcx);
  (* 172 *) Test 4 (I 2) (M rcx None 20);
  (* 173 *) Jcc CNE L_Ldo_not_modify_suspend_reg;
  (* 174 *) Mov 8 (I 4611686018427387905) (R rax);
  (* 175 *) Alu Or 8 (R rax) (M rdx None 128);
  (* 177 .Ldo_not_modify_suspend_reg: *) Alu Or 4 (I 1) (M rcx None 20);
  (* 178 *) Ret;
  (* 181 .Lsigsegv: *) Mov 8 (M rdx None 160) (R rax);
  (* 182 *) Alu Sub 8 (I 8) (R rax);
  (* 183 *) Mov 8 (R rax) (M rdx None 160);
  (* 185 *) Mov 8 (M rdx None 168) (R rbx);
  (* 186 *) Mov 8 (R rbx) (M rax None 0);
  (* 188 *) LeaCode L_Lsigsegv_exit rbx;
  (* 189 *) Mov 8 (R rbx) (M rdx None 168);
  (* 190 *) Ret;
  (* 193 .Lsigsegv_exit: *) Mov 4 (I 105) (R rdi);
  (* 194 *) Jmp L_Lexit;
  (* 201 signal_restorer: *) Mov 4 (I 15) (R rax);
  (* 202 *) Syscall;
  (* 203 *) Int3;
  (* 211 trap_handler: *) Test 4 (R rax) (R rax);
  (* 212 *) Jcc CE L_Ltrap_exit;
  (* 213 *) Cmp 4 (I 4) (R rax);
  (* 214 *) Jcc CE L_Ltrap_call_stack_exhausted;
  (* 216 *) Mov 4 (R rax) (R rdi);
  (* 217 *) Alu Add 4 (I 100) (R rdi);
  (* 218 *) Jmp L_Lexit;
  (* 221 .Ltrap_exit: *) Mov 4 (I 1) (R rdi);
  (* 222 *) Shr 8 32 rax;
  (* 223 *) Cmove 4 rax rdi;
  (* 224 *) Jmp L_Lexit;
  (* 227 .Ltrap_call_stack_exhausted: *) Test 4 (I 1) (R rbx);
  (* 228 *) Jcc CNE L_Ltrap_suspended;
  (* 230 *) Mov 4 (I 104) (R rdi);
  (* 231 *) Jmp L_Lexit;
  (* 234 .Ltrap_suspended: *) Mov 4 (I 102) (R rdi);
  (* 235 *) Jmp L_Lexit;
  (* 243 current_memory: *) Mov 8 (I 13835058055282163710) (R rax);
  (* 243 *) Mov 8 (R rbx) (R rcx);
  (* 243 *) Alu And 8 (R rax) (R rcx);
  (* 243 *) Alu Sub 8 (I 9984) (R rcx);
  (* 243 *) Mov 4 (M rcx None 4) (R rax);
  (* 244 *) Jmp L_Lresume;
  (* 253 grow_memory: *) Mov 4 (R rax) (R r12);
  (* 254 *) Mov 4 (R rax) (R rsi);
  (* 256 *) Mov 8 (I 13835058055282163710) (R rax);
  (* 256 *) Mov 8 (R rbx) (R rcx);
  (* 256 *) Alu And 8 (R rax) (R rcx);
  (* 256 *) Alu Sub 8 (I 9984) (R rcx);
  (* 256 *) Mov 4 (M rcx None 4) (R rdi);
  (* 257 *) Alu Add 8 (R rdi) (R r12);
  (* 258 *) Cmp 8 (R r12) (M r15 None (-40));
  (* 259 *) Jcc CL L_Loom;
  (* 261 *) Mov 8 (M r15 None (-32)) (R r14);
  (* 282 *) Shl 8 16 rdi;
  (* 283 *) Alu Add 8 (R r14) (R rdi);
  (* 285 *) Shl 8 16 rsi;
  (* 286 *) Jcc CE L_Lgrow_memory_done;
  (* 288 *) Mov 4 (I 3) (R rdx);
  (* 289 *) Mov 4 (I 10) (R rax);
  (* 290 *) Syscall;
  (* 291 *) Test 4 (R rax) (R rax);
  (* 292 *) Jcc CE L_Lgrow_memory_done;
  (* 294 *) Mov 4 (I 7) (R rax);
  (* 295 *) Jmp L_Lexit;
  (* 300 .Lgrow_memory_done: *) Mov 8 (I 13835058055282163710) (R rax);
  (* 300 *) Mov 8 (R rbx) (R rcx);
  (* 300 *) Alu And 8 (R rax) (R rcx);
  (* 300 *) Alu Sub 8 (I 9984) (R rcx);
  (* 300 *) Mov 4 (M rcx None 4) (R rax);
  (* 301 *) Mov 4 (R r12) (M rcx None 4);
  (* 302 *) Jmp L_Lresume;
  (* 305 .Loom: *) Mov 4 (I 4294967295) (R rax);
  (* 306 *) Jmp L_Lresume;
  (* 313 rt_nop: *) Alu Xor 4 (R rax) (R rax);
  (* 318 .Lresume: *) Lea (M r15 None 16) rcx;
  (* 327 retpoline: *) Call L_Lretpoline_setup;
  (* 329 .Lretpoline_capture: *) Pause;
  (* 330 *) Jmp L_Lretpoline_capture;
  (* 332 .Lretpoline_setup: *) Mov 8 (R rcx) (M rsp None 0);
  (* 333 *) Alu Xor 4 (R rcx) (R rcx);
  (* 334 *) Ret;
  (* 341 rt_poll: *) Mov 4 (M rsp None 16) (R rcx);
  (* 342 *) Mov 4 (M rsp None 8) (R rsi);
  (* 344 *) Alu Sub 8 (I 16) (R rsp);
  (* 345 *) Mov 4 (I 0) (M rsp None 0);
  (* 346 *) Mov 4 (R rcx) (M rsp None 4);
  (* 347 *) Mov 4 (I 1) (M rsp None 8);
  (* 348 *) Mov 4 (R rsi) (M rsp None 12);
  (* 350 *) Mov 8 (R rsp) (R rdi);
  (* 351 *) Mov 4 (I 2) (R rsi);
  (* 352 *) Alu Xor 4 (R rdx) (R rdx);
  (* 353 *) Alu Xor 4 (R r10) (R r10);
  (* 354 *) Mov 4 (I 271) (R rax);
  (* 355 *) Syscall;
  (* 357 *) Alu Xor 4 (R rcx) (R rcx);
  (* 358 *) Alu Xor 4 (R rsi) (R rsi);
  (* 359 *) Mov 2 (M rsp None 6) (R rcx);
  (* 360 *) Mov 2 (M rsp None 14) (R rsi);
  (* 361 *) Alu Add 8 (I 16) (R rsp);
  (* 363 *) Mov 4 (I 10) (R rdi);
  (* 365 *) Test 8 (R rax) (R rax);
  (* 366 *) Jcc CG L_Lpoll_revents;
  (* 368 *) Cmp 4 (I 4294967285) (R rax);
  (* 369 *) Jcc CE L_rt_nop;
  (* 370 *) Cmp 4 (I 4294967292) (R rax);
  (* 371 *) Jcc CE L_rt_nop;
  (* 373 *) Jmp L_Lexit;
  (* 376 .Lpoll_revents: *) Alu Xor 4 (R rax) (R rax);
  (* 378 *) Test 4 (I 8208) (R rcx);
  (* 379 *) Jcc CNE L_rt_nop;
  (* 380 *) Test 4 (I 4294967294) (R rcx);
  (* 381 *) Jcc CNE L_Lexit;
  (* 382 *) Alu Or 4 (R rcx) (R rax);
  (* 384 *) Test 4 (I 4294967291) (R rsi);
  (* 385 *) Jcc CNE L_Lexit;
  (* 386 *) Alu Or 4 (R rsi) (R rax);
  (* 388 *) Jmp L_Lresume;
  (* 395 rt_read: *) Mov 8 (I 13835058055282163710) (R rax);
  (* 395 *) Mov 8 (R rbx) (R rcx);
  (* 395 *) Alu And 8 (R rax) (R rcx);
  (* 395 *) Alu Sub 8 (I 9984) (R rcx);
  (* 395 *) Mov 4 (M rcx None 4) (R r13);
  (* 395 *) Shl 4 16 r13;
  (* 395 *) Mov 8 (M r15 None (-32)) (R r14);
  (* 395 *) Alu Add 8 (R r14) (R r13);
  (* 395 *) Mov 4 (M rsp None 16) (R rsi);
  (* 395 *) Mov 4 (M rsp None 8) (R rdx);
  (* 395 *) Test 4 (R rdx) (R rdx);
  (* 395 *) Jcc CE L_rt_nop;
  (* 395 *) Alu Add 8 (R r14) (R rsi);
  (* 395 *) Lea (M rsi (Some rdx) 0) r11;
  (* 395 *) Cmp 8 (R r11) (R r13);
  (* 395 *) Jcc CL L_Lout_of_bounds;
  (* 395 *) Cmp 8 (R rsi) (R r11);
  (* 395 *) Jcc CL L_Lout_of_bounds;
  (* 397 *) Mov 4 (I 0) (R rdi);
  (* 398 *) Mov 4 (I 0) (R rax);
  (* 399 *) Syscall;
  (* 400 *) Test 8 (R rax) (R rax);
  (* 401 *) Jcc CGE L_Lresume;
  (* 403 *) Cmp 4 (I 4294967285) (R rax);
  (* 404 *) Jcc CE L_rt_nop;
  (* 405 *) Cmp 4 (I 4294967292) (R rax);
  (* 406 *) Jcc CE L_rt_nop;
  (* 408 *) Mov 4 (I 4) (R rdi);
  (* 409 *) Jmp L_Lexit;
  (* 416 rt_write: *) Mov 8 (I 13835058055282163710) (R rax);
  (* 416 *) Mov 8 (R rbx) (R rcx);
  (* 416 *) Alu And 8 (R rax) (R rcx);
  (* 416 *) Alu Sub 8 (I 9984) (R rcx);
  (* 416 *) Mov 4 (M rcx None 4) (R r13);
  (* 416 *) Shl 4 16 r13;
  (* 416 *) Mov 8 (M r15 None (-32)) (R r14);
  (* 416 *) Alu Add 8 (R r14) (R r13);
  (* 416 *) Mov 4 (M rsp None 16) (R rsi);
  (* 416 *) Mov 4 (M rsp None 8) (R rdx);
  (* 416 *) Test 4 (R rdx) (R rdx);
  (* 416 *) Jcc CE L_rt_nop;
  (* 416 *) Alu Add 8 (R r14) (R rsi);
  (* 416 *) Lea (M rsi (Some rdx) 0) r11;
  (* 416 *) Cmp 8 (R r11) (R r13);
  (* 416 *) Jcc CL L_Lout_of_bounds;
  (* 416 *) Cmp 8 (R rsi) (R r11);
  (* 416 *) Jcc CL L_Lout_of_bounds;
  (* 418 *) Mov 4 (I 1) (R rdi);
  (* 419 *) Mov 4 (I 1) (R rax);
  (* 420 *) Syscall;
  (* 421 *) Test 8 (R rax) (R rax);
  (* 422 *) Jcc CG L_Lresume;
  (* 424 *) Cmp 4 (I 4294967285) (R rax);
  (* 425 *) Jcc CE L_rt_nop;
  (* 426 *) Cmp 4 (I 4294967292) (R rax);
  (* 427 *) Jcc CE L_rt_nop;
  (* 429 *) Mov 4 (I 5) (R rdi);
  (* 430 *) Jmp L_Lexit;
  (* 433 .Lout_of_bounds: *) Mov 4 (I 105) (R rdi);
  (* 434 *) Jmp L_Lexit;
  (* 441 rt_time: *) Mov 4 (M rsp None 8) (R rdi);
  (* 447 .Ltime: *) Mov 4 (R rdi) (R r12);
  (* 449 *) Alu Sub 8 (I 16) (R rsp);
  (* 450 *) Mov 8 (R rsp) (R rsi);
  (* 452 *) Mov 8 (I 13835058055282163710) (R rax);
  (* 452 *) Mov 8 (R rbx) (R rcx);
  (* 452 *) Alu And 8 (R rax) (R rcx);
  (* 452 *) Alu Sub 8 (I 9984) (R rcx);
  (* 453 *) Alu Or 4 (I 2) (M rcx None 20);
  (* 455 *) Push rbx;
  (* 456 *) Push r15;
  (* 458 *) Mov 8 (M r15 None (-88)) (R rcx);
  (* 459 *) Call L_retpoline;
  (* 460 *) Mov 4 (R rax) (R r13);
  (* 462 *) Pop r15;
  (* 463 *) Pop rbx;
  (* 465 *) Mov 8 (I 13835058055282163710) (R rax);
  (* 465 *) Mov 8 (R rbx) (R rcx);
  (* 465 *) Alu And 8 (R rax) (R rcx);
  (* 465 *) Alu Sub 8 (I 9984) (R rcx);
  (* 466 *) Alu Xor 4 (R rax) (R rax);
  (* 467 *) Xchg 4 rax (M rcx None 20);
  (* 468 *) Test 4 (I 1) (R rax);
  (* 469 *) Jcc CE L_Lnot_suspended;
  (* 470 *) Mov 8 (I 4611686018427387905) (R rax);
  (* 471 *) Alu Or 8 (R rax) (R rbx);
  (* 474 .Lnot_suspended: *) Pop r10;
  (* 475 *) Pop r11;
  (* 477 *) Mov 4 (I 9) (R rdi);
  (* 478 *) Mov 8 (I 18446744073709551615) (R rdx);
  (* 479 *) Test 4 (R r13) (R r13);
  (* 480 *) Jcc CNE L_Lexit_time;
  (* 482 *) Mov 8 (R r10) (R rax);
  (* 483 *) Mov 4 (I 1000000000) (R rcx);
  (* 484 *) Mul rcx;
  (* 485 *) Alu And 4 (M r15 None (-72)) (R r11);
  (* 486 *) Alu Add 8 (R r11) (R rax);
  (* 488 *) Cmp 4 (I 6) (R r12);
  (* 489 *) Jcc CNE L_Lresume;
  (* 491 *) Alu Sub 8 (M r15 None (-80)) (R rax);
  (* 492 *) Mov 8 (R rax) (R rdx);
  (* 493 *) Mov 8 (I 13835058055282163710) (R rax);
  (* 493 *) Mov 8 (R rbx) (R rcx);
  (* 493 *) Alu And 8 (R rax) (R rcx);
  (* 493 *) Alu Sub 8 (I 9984) (R rcx);
  (* 494 *) Alu Add 8 (M rcx None 8) (R rdx);
  (* 495 *) Mov 8 (R rdx) (R rax);
  (* 496 *) Jmp L_Lresume;
  (* 503 rt_random: *) Mov 8 (I 13835058055282163710) (R rax);
  (* 503 *) Mov 8 (R rbx) (R rcx);
  (* 503 *) Alu And 8 (R rax) (R rcx);
  (* 503 *) Alu Sub 8 (I 9984) (R rcx);
  (* 504 *) Mov 4 (M rcx None 16) (R rdx);
  (* 505 *) Dec 4 rdx;
  (* 506 *) Jcc CL L_Lno_random;
  (* 507 *) Mov 4 (R rdx) (M rcx None 16);
  (* 509 *) Alu Xor 4 (R rax) (R rax);
  (* 510 *) Mov 1 (M r15 (Some rdx) (-64)) (R rax);
  (* 511 *) Jmp L_Lresume;
  (* 514 .Lno_random: *) Mov 4 (I 4294967295) (R rax);
  (* 515 *) Jmp L_Lresume;
  (* 522 rt_stop: *) Mov 4 (M rsp None 8) (R rdi);
  (* 528 .Lexit: *) Push rdi;
  (* 530 *) Mov 4 (I 6) (R rdi);
  (* 531 *) Call L_Ltime;
  (* 532 *) Mov 8 (R rax) (R rdx);
  (* 534 *) Pop rdi;
  (* 541 .Lexit_time: *) Mov 8 (I 13835058055282163710) (R rax);
  (* 541 *) Mov 8 (R rbx) (R rcx);
  (* 541 *) Alu And 8 (R rax) (R rcx);
  (* 541 *) Alu Sub 8 (I 9984) (R rcx);
  (* 542 *) Mov 8 (R rsp) (R rax);
  (* 543 *) Alu Sub 8 (R rcx) (R rax);
  (* 544 *) Mov 4 (R rax) (M rcx None 0);
  (* 545 *) Mov 8 (R rdx) (M rcx None 8);
  (* 554 sys_exit: *) Mov 4 (I 231) (R rax);
  (* 555 *) Syscall;
  (* 556 *) Int3;
  (* 563 rt_debug: *) Mov 8 (I 13835058055282163710) (R rax);
  (* 563 *) Mov 8 (R rbx) (R rcx);
  (* 563 *) Alu And 8 (R rax) (R rcx);
  (* 563 *) Alu Sub 8 (I 9984) (R rcx);
  (* 563 *) Mov 4 (M rcx None 4) (R r13);
  (* 563 *) Shl 4 16 r13;
  (* 563 *) Mov 8 (M r15 None (-32)) (R r14);
  (* 563 *) Alu Add 8 (R r14) (R r13);
  (* 563 *) Mov 4 (M rsp None 16) (R rsi);
  (* 563 *) Mov 4 (M rsp None 8) (R rdx);
  (* 563 *) Test 4 (R rdx) (R rdx);
  (* 563 *) Jcc CE L_rt_nop;
  (* 563 *) Alu Add 8 (R r14) (R rsi);
  (* 563 *) Lea (M rsi (Some rdx) 0) r11;
  (* 563 *) Cmp 8 (R r11) (R r13);
  (* 563 *) Jcc CL L_Lout_of_bounds;
  (* 563 *) Cmp 8 (R rsi) (R r11);
  (* 563 *) Jcc CL L_Lout_of_bounds;
  (* 565 *) Mov 4 (I 1) (R rax);
  (* 566 *) Mov 4 (I 2) (R rdi);
  (* 567 *) Syscall;
  (* 568 *) Test 8 (R rax) (R rax);
  (* 569 *) Jcc CG L_Ldebugged_some;
  (* 570 *) Jcc CE L_rt_nop;
  (* 572 *) Cmp 4 (I 4294967292) (R rax);
  (* 573 *) Jcc CE L_rt_debug;
  (* 575 *) Mov 4 (I 6) (R rdi);
  (* 576 *) Jmp L_Lexit;
  (* 579 .Ldebugged_some: *) Alu Add 4 (R rax) (M rsp None 16);
  (* 580 *) Alu Sub 4 (R rax) (M rsp None 8);
  (* 581 *) Jcc CE L_rt_nop;
  (* 583 *) Jmp L_rt_debug;
  (* 585 *) Int3
].
