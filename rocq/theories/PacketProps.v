(* PacketProps.v: properties C01, C02, C03. *)
From Verif Require Import BaseLemmas Packet PacketSpec PacketProofs.

(* C01: any sequence of header writes behaves as writes to independent fields. *)
Theorem packet_header_writes : forall ops b v,
  (8 <= length b)%nat -> len b < 2 ^ 32 -> Forall hop_ok ops -> observe b = Ok v ->
  exists b', hrun ops b = Ok b' /\ length b' = length b /\
    observe b' = Ok (fold_left (fun v o => spec_step o v) ops v).
Proof. exact hrun_observe. Qed.
Print Assumptions packet_header_writes.

Example packet_header_writes_ex :
  exists b, hrun [HCode (-2); HSize; HIndex 200; HCode 77] (repeat 255 11) = Ok b /\
    observe b = Ok (View 11 77 15 200 [255; 255; 255]).
Proof. eexists; split; vm_compute; reflexivity. Qed.

(* C01: a packet made by the API has the requested code and domain, zero size
   and index fields and zeroed content. *)
Theorem packet_make_fields : forall code dom n,
  -2 ^ 15 <= code < 2 ^ 15 -> 0 <= dom < 16 ->
  exists b, Make code dom (8 + n) = Ok b /\ length b = (8 + n)%nat /\ observe b = Ok (View 0 code dom 0 (zeros n)).
Proof. exact make_observe. Qed.
Print Assumptions packet_make_fields.

Example packet_make_fields_ex : Make (-5) 3 (8 + 1) = Ok [0; 0; 0; 0; 251; 255; 3; 0; 0].
Proof. reflexivity. Qed.

(* C02: a flow packet made with n entries and written to in any order holds,
   at each entry, the value last written there; it is accepted by IsValidFlow
   when ids and increments are non-negative. *)
Theorem flow_packet_history : forall code n ops,
  -2 ^ 15 <= code < 2 ^ 15 ->
  Forall (fun o => (fst o < n)%nat /\ int32_ok (fst (snd o)) /\ int32_ok (snd (snd o))) ops ->
  exists b0 b, MakeFlows code n = Ok b0 /\ frun ops b0 = Ok b /\ Num b = Z.of_nat n /\
    (forall i, (i < n)%nat -> FlowGet i b = Ok (last_write ops i (0, 0))) /\
    (exists k, observe b = Ok (View 0 code DomainFlow 0 k)) /\
    (Forall (fun o => 0 <= fst (snd o) /\ 0 <= snd (snd o)) ops -> IsValidFlow b code = Ok true).
Proof. exact flow_history. Qed.
Print Assumptions flow_packet_history.

Example flow_packet_history_ex :
  exists b, (do b0 <- MakeFlows 3 2; frun [(1%nat, (7, 9)); (0%nat, (-1, 5)); (1%nat, (2, 2147483647))] b0) = Ok b /\
    FlowGet 0 b = Ok (-1, 5) /\ FlowGet 1 b = Ok (2, 2147483647) /\ IsValidFlow b 3 = Ok false.
Proof. eexists; repeat split; vm_compute; reflexivity. Qed.

(* A single-entry flow packet has its code and just that entry. *)
Theorem flow_packet_single : forall code id increment,
  -2 ^ 15 <= code < 2 ^ 15 -> int32_ok id -> int32_ok increment ->
  exists b k, MakeFlow code id increment = Ok b /\ Num b = 1 /\ FlowGet 0 b = Ok (id, increment) /\
    observe b = Ok (View 0 code DomainFlow 0 k).
Proof.
  intros code id inc Hc Hi Hn. destruct (flow_history code 1 [(0%nat, (id, inc))] Hc) as (b0 & b & E0 & E & EN & EG & (k & EO) & _).
  { constructor; [split; [apply Nat.lt_succ_diag_r|split; assumption]|constructor]. }
  exists b, k. unfold MakeFlow. rewrite E0. cbn [bind frun] in *. destruct (FlowSet 0 id inc b0) as [b1| |] eqn:E1; try discriminate. cbn [bind] in E.
  assert (b1 = b) by congruence. subst b1. specialize (EG 0%nat ltac:(lia)). cbn in EG. auto.
Qed.
Print Assumptions flow_packet_single.
Example flow_packet_single_ex : exists b, MakeFlow (-2) 7 9 = Ok b /\ FlowGet 0 b = Ok (7, 9).
Proof. eexists; split; [vm_compute; reflexivity|vm_compute; reflexivity]. Qed.

(* C02: the flow validity check never panics, on any byte string, and accepts
   exactly the well-formed flow packets. *)
Theorem flow_validation_exact : forall b c,
  exists r, IsValidFlow b c = Ok r /\
  (r = true <-> (exists v, observe b = Ok v /\ v_code v = c /\ v_domain v = DomainFlow) /\ len b mod 8 = 0 /\
     forall i, (8 + 8 * i + 8 <= length b)%nat -> exists id inc, FlowGet i b = Ok (id, inc) /\ 0 <= id /\ 0 <= inc).
Proof. exact valid_flow_spec. Qed.
Print Assumptions flow_validation_exact.

(* Data packets: any sequence of note writes to a new data packet leaves its code, id and data,
   and the last note. *)
Theorem data_packet_history : forall code id n notes, -2 ^ 15 <= code < 2 ^ 15 -> int32_ok id -> Forall int32_ok notes ->
  exists b k, fold_left (fun r v => do b <- r; SetNote v b) notes (MakeData code id n) = Ok b /\
    DataID b = Ok id /\ DataNote b = Ok (last notes 0) /\ Data b = Ok (zeros n) /\ DataLen b = Z.of_nat n /\
    observe b = Ok (View 0 code DomainData 0 k).
Proof. exact data_history. Qed.
Print Assumptions data_packet_history.
Example data_packet_history_ex : exists b, fold_left (fun r v => do b <- r; SetNote v b) [5; -3] (MakeData 2 77 3) = Ok b /\
  DataID b = Ok 77 /\ DataNote b = Ok (-3) /\ Data b = Ok [0; 0; 0].
Proof. eexists; split; [vm_compute; reflexivity|]. repeat split; vm_compute; reflexivity. Qed.

(* Importing an untrusted data packet never panics, and accepts exactly the
   data packets of the given code with a full header and a non-negative id. *)
Theorem data_import_exact : forall b c,
  (exists v id, observe b = Ok v /\ v_code v = c /\ v_domain v = DomainData /\ 16 <= len b /\
     DataID b = Ok id /\ 0 <= id /\ ImportData b c = Ok b) \/
  (ImportData b c = Err /\ ~ (exists v id, observe b = Ok v /\ v_code v = c /\ v_domain v = DomainData /\ 16 <= len b /\
     DataID b = Ok id /\ 0 <= id)).
Proof. exact import_data_spec. Qed.
Print Assumptions data_import_exact.

Example data_import_ex : (do b <- MakeData 2 5 3; ImportData b 2) = MakeData 2 5 3 /\ ImportData [1;2;3] 2 = Err.
Proof. split; reflexivity. Qed.

(* C03: splitting: the prefix is the leading bytes unchanged; the unused part
   begins at the next aligned offset, and if it has room for a header it
   carries a copy of the original header followed by the original bytes. *)
Theorem packet_split_regions : forall hs pl b,
  (hs <= pl)%nat -> (pl <= length b)%nat ->
  exists unused, Split hs pl b = Ok (firstn pl b, unused) /\
    len unused = Z.max 0 (len b - 8 * ((Z.of_nat pl + 7) / 8)) /\
    (Z.of_nat hs <= len unused -> firstn hs unused = firstn hs b /\
       skipn hs unused = skipn (Z.to_nat (8 * ((Z.of_nat pl + 7) / 8)) + hs) b).
Proof. intros hs pl b. rewrite <- Align_spec. exact (split_ok hs pl b). Qed.
Print Assumptions packet_split_regions.

Example packet_split_ex :
  exists b p u, MakeData 1 9 30 = Ok b /\ DataSplit 3 b = Ok (p, u) /\ length p = 19%nat /\ length u = 22%nat /\
    DataID u = Ok 9 /\ Code u = Ok 1.
Proof. do 3 eexists. repeat split; vm_compute; reflexivity. Qed.

(* C03, refuted part: the documentation says that if the buffer is too short
   for the second part, the length of the second buffer will be zero.  The
   code's reslice [0:] leaves the leftover bytes in place. *)
Theorem packet_split_short_is_empty_refuted :
  exists b p u, MakeData 1 9 20 = Ok b /\ DataSplit 3 b = Ok (p, u) /\ 0 < len u < 16.
Proof. do 3 eexists. split; [reflexivity|]. split; [vm_compute; reflexivity|]. vm_compute; split; reflexivity. Qed.
Print Assumptions packet_split_short_is_empty_refuted.
