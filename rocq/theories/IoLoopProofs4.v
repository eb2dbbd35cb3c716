From Verif Require Import BaseLemmas Packet PacketProofs IoLoop IoLoopSpec IoLoopProofs IoLoopProofs2 IoLoopProofs3.

(* Histories of a program over suspensions.  [lives S d o n f]: the program
   whose output is the byte stream S has been run and suspended any number of
   times; d: messages delivered to its services so far; o: the saved Output; n:
   number of its services; f: the part of S it has not yet written. *)
Inductive lives (S : bytes) : list bytes -> bytes -> Z -> bytes -> Prop :=
| lives_start n : lives S [] [] n S
| lives_cycle d o n f k input sv pipe s0 es s o' v' :
    lives S d o n f -> (k <= length f)%nat -> concat pipe = firstn k f ->
    io_start o input n sv pipe = Ok s0 -> io_run s0 es = Some s -> result s = Some (OFrozen o' v') ->
    len o' < 2 ^ 32 ->
    lives S (d ++ delivered s) o' (nsvc s) (skipn k f).

Definition clean (m : nat) (fs : list (bytes * bytes)) : Prop :=
  m = 0%nat \/ (m = 8%nat /\ (8 < length (first_frame fs))%nat).

Lemma clean_tail m fs : Forall frame_ok fs -> clean m fs ->
  let tail := firstn m (stream fs) in
  length tail = m /\ ((length tail < 8)%nat \/ (8 <= unle (firstn 4 tail) <= 65536 /\ len tail < unle (firstn 4 tail))).
Proof.
  intros HF [-> |[-> H]] tail.
  - split; [reflexivity|]. left. cbn. lia.
  - destruct fs as [|[p pad] fs]; [cbn in H; lia|]. cbn [first_frame fst snd] in H. inversion HF as [|? ? [[K1 K2] [K3 K4]] _]; subst.
    cbn [fst snd] in *. unfold tail. rewrite stream_cons. cbn [fst snd].
    rewrite (firstn_app_le (p ++ pad) (stream fs)) by lia.
    assert (L8 : length (firstn 8 (p ++ pad)) = 8%nat) by (rewrite firstn_length; lia). split; [assumption|]. right.
    assert (SZ : unle (firstn 4 (firstn 8 (p ++ pad))) = len p) by (apply unle_size; now split).
    rewrite SZ. unfold len at 3. rewrite L8. split; [lia|]. rewrite app_length in H.
    destruct (Z.eq_dec (len p) 8) as [E|E]; [|lia]. exfalso. rewrite E in K4.
    assert (len pad = 0) by (pose proof (len_nonneg pad); destruct (Z.eq_dec (len pad) 0); [assumption|];
      rewrite <- (Z.mod_small (len pad) 8), <- K4 in n by lia; rewrite <- Zplus_mod_idemp_l in n; change (8 mod 8) with 0 in n; now rewrite Z.add_0_l in n).
    unfold len in *. lia.
Qed.

Lemma frames_good a : Forall frame_ok a -> Forall (fun x => is_bytes (fst x)) a -> Forall good (map fst a).
Proof.
  intros A1 A2. induction a as [|x a IH]; cbn [map]; constructor.
  - inversion A1 as [|? ? [? ?] ?]; inversion A2; subst. now split.
  - inversion A1; inversion A2; subst. now apply IH.
Qed.

Lemma lives_inv fs d o n f : Forall frame_ok fs -> Forall (fun x => is_bytes (fst x)) fs ->
  lives (stream fs) d o n f ->
  exists ms m rest, o = concat ms ++ firstn m (stream rest) /\ f = skipn m (stream rest) /\ clean m rest /\
    Forall frame_ok rest /\ Forall (fun x => is_bytes (fst x)) rest /\ Forall (svc_packet n) ms /\ len o < 2 ^ 32 /\
    d ++ ms ++ filter to_service (map fst rest) = filter to_service (map fst fs).
Proof.
  intros HF HB L. induction L as [n|d o n f k input sv pipe s0 es s o' v' L IH HK HC HS HR HO H32].
  - exists [], 0%nat, fs. repeat split; try assumption; try constructor. reflexivity.
  - destruct IH as (ms & m & rest & E1 & E2 & E3 & E4 & E5 & E6 & E7 & E8).
    destruct (clean_tail m rest E4 E3) as [LT TT].
    unfold io_start in HS. rewrite E1 in HS. rewrite split_msgs in HS; try assumption; [|now rewrite <- E1].
    cbn [bind] in HS.
    assert (HM : (m < length (first_frame rest) \/ m = 0)%nat) by (destruct E3 as [->|[-> ?]]; [now right|now left]).
    assert (HQ : (m + k <= length (stream rest))%nat).
    { rewrite E2, skipn_length in HK. rewrite firstn_length in LT. lia. }
    assert (HCC : concat pipe = firstn k (skipn m (stream rest))) by now rewrite HC, E2.
    unfold reads in HS.
    assert (FU : (m + k < 8 * S (length (firstn m (stream rest)) + length (concat pipe)))%nat).
    { rewrite LT, HC, firstn_length. lia. }
    destruct (read_loop_cut rest _ m k pipe E4 FU HM HQ HCC) as (a & b & r & e & EA & EL & ER & EE & EX1 & EX2).
    rewrite EE in HS. injection HS as <-. subst rest.
    apply Forall_app in E4. destruct E4 as [A1 B1]. apply Forall_app in E5. destruct E5 as [A2 B2].
    match type of HR with io_run ?x _ = _ => set (s0 := x) in * end.
    assert (F0 : Fifo ms (map fst a) s0).
    { constructor; cbn; try assumption; [reflexivity|constructor|now apply frames_good]. }
    destruct (fifo_run ms (map fst a) es s0 s F0 eq_refl HR) as ([G1 G2 G3 G4] & L1 & L2 & L3).
    destruct (L3 o' v' HO) as (I1 & I2 & I3 & I4). cbn [s0 ending fst snd] in I2, I3.
    rewrite I1 in G1. cbn [filter] in G1. rewrite app_nil_r in G1.
    exists (msgs s), r, b. split; [assumption|]. split; [|split; [|split; [|split; [|split; [|split]]]]]; try assumption.
    + rewrite E2, skipn_skipn, stream_app. rewrite <- EL. rewrite <- (skipn_skipn _ r (length (stream a))). now rewrite skipn_app_exact.
    + unfold clean. destruct (Nat.eq_dec r 0) as [->|NR]; [now left|]. right.
      destruct ER as [ER|ER]; [|lia]. assert (r = 8%nat); [|subst r; now split].
      destruct a as [|x a].
      * cbn [stream map concat length app] in *. specialize (EX2 eq_refl). rewrite I2 in EX2.
        destruct (_ || _) eqn:Q in EX2; [|discriminate]. destruct (Nat.eqb_spec k 0); [|cbn in Q; lia].
        destruct E3 as [->|[-> ?]]; lia.
      * specialize (EX1 ltac:(discriminate)). rewrite I2 in EX1. destruct (_ || _) eqn:Q in EX1; [lia|discriminate].
    + rewrite <- E8. rewrite map_app, filter_app. rewrite <- app_assoc. f_equal. rewrite app_assoc. etransitivity; [exact (f_equal (fun x => x ++ filter to_service (map fst b)) G1)|]. cbn beta. now rewrite <- app_assoc.
Qed.

(* A suspension that cuts the output elsewhere fails. *)
Lemma cut_fails fs m k pipe o n input sv s0 es s :
  Forall frame_ok fs -> Forall (fun x => is_bytes (fst x)) fs -> clean m fs ->
  (m + k <= length (stream fs))%nat -> concat pipe = firstn k (skipn m (stream fs)) ->
  o = firstn m (stream fs) ->
  io_start o input n sv pipe = Ok s0 -> io_run s0 es = Some s ->
  forall o' v', result s = Some (OFrozen o' v') ->
  exists a b r, fs = a ++ b /\ (length (stream a) + r = m + k)%nat /\ (r = 0 \/ r = 8)%nat /\ (r < length (first_frame b) \/ r = 0)%nat.
Proof.
  intros HF HB HCL HQ HC -> HS HR o' v' HO.
  destruct (clean_tail m fs HF HCL) as [LT TT].
  unfold io_start in HS. change (firstn m (stream fs)) with (concat [] ++ firstn m (stream fs)) in HS.
  rewrite split_msgs in HS; [|constructor| |assumption].
  2:{ cbn [concat app]. unfold len. rewrite LT. destruct HCL as [-> |[-> _]]; lia. }
  cbn [bind] in HS. unfold reads in HS.
  assert (HM : (m < length (first_frame fs) \/ m = 0)%nat) by (destruct HCL as [->|[-> ?]]; [now right|now left]).
  assert (FU : (m + k < 8 * S (length (firstn m (stream fs)) + length (concat pipe)))%nat).
  { rewrite LT, HC, firstn_length, skipn_length. lia. }
  destruct (read_loop_cut fs _ m k pipe HF FU HM HQ HC) as (a & b & r & e & EA & EL & ER & EE & EX1 & EX2).
  rewrite EE in HS. injection HS as <-. subst fs.
  apply Forall_app in HF. destruct HF as [A1 B1]. apply Forall_app in HB. destruct HB as [A2 B2].
  match type of HR with io_run ?x _ = _ => set (s0 := x) in * end.
  assert (F0 : Fifo [] (map fst a) s0).
  { constructor; cbn; [reflexivity|constructor|constructor|now apply frames_good]. }
  destruct (fifo_run [] (map fst a) es s0 s F0 eq_refl HR) as (_ & L1 & L2 & L3).
  destruct (L3 o' v' HO) as (I1 & I2 & I3 & I4). cbn [s0 ending fst snd] in I2, I3.
  exists a, b, r. split; [reflexivity|]. split; [assumption|]. split; [|assumption].
  destruct (Nat.eq_dec r 0) as [->|NR]; [now left|]. right. destruct ER as [ER|ER]; [|lia].
  destruct a as [|x a].
  - cbn [stream map concat length app] in *. specialize (EX2 eq_refl). rewrite I2 in EX2.
    destruct (_ || _) eqn:Q in EX2; [|discriminate]. destruct (Nat.eqb_spec k 0); [|cbn in Q; lia].
    destruct HCL as [->|[-> ?]]; lia.
  - specialize (EX1 ltac:(discriminate)). rewrite I2 in EX1. destruct (_ || _) eqn:Q in EX1; [lia|discriminate].
Qed.
