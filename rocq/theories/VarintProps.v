(* VarintProps.v: property C04. *)
From Verif Require Import BaseLemmas Varint VarintProofs.

(* C04: for every non-negative int32, Len announces the number of bytes Put
   writes (1 to 5), Put leaves the rest of the destination untouched, and Scan
   on the written bytes followed by anything returns the value and exactly the
   rest. *)
Theorem varint_roundtrip : forall x dest rest,
  0 <= x < 2 ^ 31 ->
  exists n, Len x = Ok n /\ 1 <= n <= 5 /\
    (n <= len dest ->
       exists w tail, Put dest x = Ok (w, tail) /\ is_bytes w /\ len w = n /\
         tail = skipn (Z.to_nat n) dest /\ Scan (w ++ rest) = Ok (x, rest)).
Proof.
  intros x dest rest H. exists (len (put_uvarint_bytes x)). pose proof (put_len31 x H) as HL.
  split; [now apply Len_ok|]. split; [unfold len; lia|]. intros HD. unfold len in HD.
  do 2 eexists. split; [apply Put_ok; [assumption|lia]|].
  split; [apply put_uvarint_is_bytes; assert (2 ^ 31 < 2 ^ 64) by (vm_compute; reflexivity); lia|].
  split; [reflexivity|]. split; [unfold len; now rewrite Nat2Z.id|]. now apply Scan_put.
Qed.
Print Assumptions varint_roundtrip.

Example varint_roundtrip_ex :
  Len 300 = Ok 2 /\ Put [9; 9; 9] 300 = Ok ([172; 2], [9]) /\ Scan [172; 2; 7] = Ok (300, [7]) /\
  Len 2147483647 = Ok 5.
Proof. repeat split; vm_compute; reflexivity. Qed.

(* C04: on arbitrary (untrusted) bytes Scan never panics; a value it accepts is
   a non-negative int32 and it consumes at least one byte, leaving a suffix. *)
Theorem varint_scan_untrusted : forall src, is_bytes src ->
  Scan src = Err \/
  exists v k, Scan src = Ok (v, skipn k src) /\ 0 <= v < 2 ^ 31 /\ (1 <= k <= length src)%nat.
Proof.
  intros src H. destruct (Scan_total src H) as [E|(v & k & E & Hv & Hk)]; [now left|].
  right. exists v, k. split; [exact E|]. split; [change (2 ^ 31) with (2147483647 + 1); lia|exact Hk].
Qed.
Print Assumptions varint_scan_untrusted.

(* C04: a proper prefix of an encoding is rejected, and so is the canonical
   encoding of a value that does not fit in a non-negative int32. *)
Theorem varint_scan_rejects :
  (forall x n w tail dest, 0 <= x < 2 ^ 31 -> Put dest x = Ok (w, tail) -> (n < length w)%nat -> Scan (firstn n w) = Err) /\
  (forall x rest, 2 ^ 31 <= x < 2 ^ 64 -> Scan (put_uvarint_bytes x ++ rest) = Err).
Proof.
  split; [|exact Scan_too_big]. intros x n w tail dest Hx E Hn.
  destruct (Nat.ltb_spec (length dest) (length (put_uvarint_bytes x))) as [HL|HL].
  - rewrite (Put_short x dest Hx HL) in E. discriminate.
  - rewrite (Put_ok x dest Hx HL) in E. injection E as <- <-. apply Scan_trunc; [lia|assumption].
Qed.
Print Assumptions varint_scan_rejects.

Example varint_scan_rejects_ex : Scan [172] = Err /\ Scan [] = Err /\ Scan [128; 128; 128; 128; 8] = Err.
Proof. repeat split; vm_compute; reflexivity. Qed.

(* C04, refuted part: Len is total on int32 only for non-negative values; for a
   negative value the ten byte encoding overruns the five byte scratch array
   and the function panics. *)
Theorem varint_len_total_refuted : exists x, -2 ^ 31 <= x < 2 ^ 31 /\ Len x = Panic.
Proof. exists (-1). split; [lia|vm_compute; reflexivity]. Qed.
Print Assumptions varint_len_total_refuted.
