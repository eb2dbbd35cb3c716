(* WebErrorsProps.v: property C125: what a client is told about errors. *)
From Verif Require Import WebErrors.

(** ** Specification *)

(* The error without what isn't meant for the client *)
Definition public_part (e : server_error) : server_error :=
  match e with
  | AccessForbidden _ => AccessForbidden ""
  | FailWrapped t _ p => FailWrapped t "" p
  | BadModule _ p => BadModule "" p
  | Other _ => Other ""
  | _ => e
  end.
(* Status codes *)
Definition status_of (e : server_error) : Z :=
  match e with
  | AccessUnauthorized _ => 401
  | AccessForbidden _ | ResourceLimit _ => 403
  | RetryAfter _ _ _ => 429
  | NoModule | NoInstance | NoFunction _ => 404
  | FailRequest _ _ | FailWrapped _ _ _ | BadProgram _ | BadModule _ _ => 400
  | Public _ | Other _ => 500
  end.

(* server/event: what is reported, by number *)
Definition report_of (e : server_error) : report :=
  match e with
  | AccessUnauthorized _ => Request 8    (* AUTH_DENIED *)
  | AccessForbidden _ => Request 10      (* RESOURCE_DENIED *)
  | ResourceLimit _ => Request 11        (* RESOURCE_LIMIT *)
  | RetryAfter _ _ _ => Request 12       (* RATE_LIMIT *)
  | NoModule => Request 13               (* MODULE_NOT_FOUND *)
  | BadModule _ _ => Request 15          (* MODULE_ERROR *)
  | NoFunction _ => Request 16           (* FUNCTION_NOT_FOUND *)
  | BadProgram _ => Request 17           (* PROGRAM_ERROR *)
  | NoInstance => Request 18             (* INSTANCE_NOT_FOUND *)
  | FailRequest t _ | FailWrapped t _ _ => Request t
  | Public _ | Other _ => Internal
  end.
(* What the client may read *)
Definition text_of (e : server_error) : string :=
  match e with
  | AccessForbidden _ => "access denied"
  | RetryAfter _ _ _ => "request rate limit exceeded"
  | NoModule => "module not found"
  | NoInstance => "instance not found"
  | AccessUnauthorized t | ResourceLimit t | NoFunction t | FailRequest _ t | FailWrapped _ _ t | BadProgram t | BadModule _ t | Public t => t
  | Other _ => "internal server error"
  end.

(** ** C125 *)

(* Clients can't tell errors apart that differ only in private details; neither over HTTP nor over websocket. *)
Theorem private_details_hidden : forall e1 e2, public_part e1 = public_part e2 ->
  respond_server_error (as_error e1) = respond_server_error (as_error e2).
Proof.
  intros e1 e2. destruct e1, e2; cbn [public_part]; intros H; try discriminate H; try (injection H; intros; subst); reflexivity.
Qed.
Example private_details : public_part (AccessForbidden "alice is banned") = public_part (AccessForbidden "quota") /\
  a_text (respond_server_error (as_error (AccessForbidden "alice is banned"))) = "access denied"%string.
Proof. auto. Qed.

(* The status tells whose fault it is, and only internal errors are reported as such.  Credentials are asked for if they are missing. *)
Theorem error_status : forall e, let a := respond_server_error (as_error e) in
  a_status a = status_of e /\
  (a_report a = Internal <-> 500 <= a_status a) /\
  (a_authenticate a = true <-> a_status a = 401) /\
  (a_retry a <> None <-> a_status a = 429).
Proof.
  intros e. destruct e; cbn; (split; [reflexivity|]); (split; [split; try discriminate; try reflexivity; lia|]);
    (split; [split; try discriminate; reflexivity|]); try (split; [congruence|discriminate]).
  split; [reflexivity|]. intros _. unfold retry_after. cbn [fst]. unfold until_time.
  destruct (until - now <? 1) eqn:E; [discriminate|]. destruct (until - now =? 0) eqn:E0; [lia|]. discriminate.
Qed.
(* Whatever error there is (also if it's not one of the server's own), the answer isn't a success; the status is one of a few, and
   its text is either one that is public or one of a few constants. *)
Theorem any_error : forall e : error, let a := respond_server_error e in
  In (a_status a) [400; 401; 403; 404; 429; 500] /\
  (a_report a = Internal <-> a_status a = 500) /\
  (e_public e = Some (a_text a) \/
   e_public e = None /\ In (a_text a) ["unauthorized"; "resource limit reached"; "forbidden"; "too many requests"; "module not found";
     "function not found"; "instance not found"; "not found"; "bad request"; "bad program"; "bad module"; "internal server error"]%string).
Proof.
  intros e. cbv zeta. unfold respond_server_error, public_error.
  destruct (e_unauthorized e); [|destruct (e_limit e); [|destruct (e_forbidden e); [|destruct (e_retry e); [|
    destruct (e_notfound e); [destruct (e_nomodule e); [|destruct (e_nofunction e); [|destruct (e_noinstance e)]]|
    destruct (e_fail e); [|destruct (e_program e); [|destruct (e_module e)]]]]]]];
  cbn [a_status a_text a_report]; (split; [cbn; tauto|]);
  (split; [split; [try discriminate; try reflexivity|try lia; try reflexivity]|]);
  (destruct (e_public e); [left; reflexivity|right; split; [reflexivity|cbn; tauto]]).
Qed.
(* The client and the monitor are told what kind of an error it is *)
Theorem error_reported : forall e,
  a_report (respond_server_error (as_error e)) = report_of e /\ a_text (respond_server_error (as_error e)) = text_of e /\
  forall accepts : bool, http_body accepts (respond_server_error (as_error e)) = (if accepts then Some (text_of e) else None).
Proof. intros e. split; [destruct e; reflexivity|]. split; [destruct e; reflexivity|]. intros []; destruct e; reflexivity. Qed.
(* Rate limits: the client is told to wait for a positive number of seconds, which is not much longer than necessary *)
Theorem retry_after_positive : forall u n l, n <= l ->
  exists s, a_retry (respond_server_error (as_error (RetryAfter u n l))) = Some s /\ 1 <= s /\ (s = 1 \/ l + s * 10 ^ 9 <= u).
Proof.
  intros u n l L. cbn [as_error respond_server_error a_retry e_retry e_unauthorized e_limit e_forbidden]. unfold respond_server_error.
  cbn [a_retry e_retry e_unauthorized e_limit e_forbidden]. unfold retry_after. cbn [fst snd].
  assert (D : 1 <= until_time u n) by (unfold until_time; destruct (u - n <? 1) eqn:E; lia).
  assert (D' : 1 <= until_time u l) by (unfold until_time; destruct (u - l <? 1) eqn:E; lia).
  destruct (until_time u n =? 0) eqn:E0; [lia|].
  rewrite Z.quot_div_nonneg by lia.
  destruct (until_time u l / 10 ^ 9 =? 0) eqn:E1; [exists 1; split; [reflexivity|lia]|].
  eexists. split; [reflexivity|].
  pose proof (Z.div_pos (until_time u l) (10 ^ 9) ltac:(lia) ltac:(lia)).
  pose proof (Z.mul_div_le (until_time u l) (10 ^ 9) ltac:(lia)).
  split; [lia|]. right. unfold until_time in *. destruct (u - l <? 1) eqn:E2; lia.
Qed.
Example retry_after_example : a_retry (respond_server_error (as_error (RetryAfter (5 * 10 ^ 9 + 7) 0 5))) = Some 5.
Proof. vm_compute. reflexivity. Qed.
(* But the number is rounded down: waiting for that long doesn't suffice. *)
Theorem retry_after_suffices_refuted : exists u n l s, n <= l /\
  a_retry (respond_server_error (as_error (RetryAfter u n l))) = Some s /\ l + s * 10 ^ 9 < u.
Proof. exists (19 * 10 ^ 8), 0, 0, 1. split; [lia|]. split; [vm_compute; reflexivity|lia]. Qed.

(* Websocket: the close code tells the same, and the text is delivered if it has at most 123 bytes. *)
Theorem websocket_error_partial : forall e, let a := respond_server_error (as_error e) in
  (String.length (a_text a) <= 123)%nat ->
  websocket_close a = Some (if 500 <=? status_of e then 1011 else 1008, a_text a).
Proof.
  intros e a L. pose proof (error_status e) as (S & _). fold a in S. unfold websocket_close.
  destruct (_ + 2 >? 125) eqn:E; [lia|]. do 2 f_equal. rewrite S. destruct e; reflexivity.
Qed.
(* A longer one isn't, and then nothing is. *)
Theorem websocket_error_refuted : exists e, websocket_close (respond_server_error (as_error e)) = None.
Proof.
  exists (BadProgram "a program's public error message that happens to be longer than what fits into a control frame of the websocket protocol after the code").
  vm_compute. reflexivity.
Qed.
Example websocket_errors :
  websocket_close (respond_server_error (as_error NoInstance)) = Some (1008, "instance not found"%string) /\
  websocket_close (respond_server_error (as_error (Other "disk on fire"))) = Some (1011, "internal server error"%string).
Proof. vm_compute. auto. Qed.
Print Assumptions private_details_hidden.
Print Assumptions error_status.
Print Assumptions any_error.
Print Assumptions error_reported.
Print Assumptions retry_after_positive.
Print Assumptions retry_after_suffices_refuted.
Print Assumptions websocket_error_partial.
Print Assumptions websocket_error_refuted.
