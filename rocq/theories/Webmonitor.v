(* Webmonitor.v: model of server/monitor/webmonitor/webmonitor.go: the origin check and a connection of the monitor page.
   Simplified: header values and texts are bytes; JSON encoding and the websocket library are left out (a frame is written or not, whole). *)
From Verif Require Export Base.

Definition text_eqb (a b : bytes) : bool := if list_eq_dec Z.eq_dec a b then true else false.
(* webmonitor.go:32-49 checkOrigin; origins: None is nil; header: r.Header.Get("Origin"), empty if missing *)
Fixpoint origin_in (origin : bytes) (l : list bytes) : bool :=
  match l with [] => false | allowed :: t => if text_eqb origin allowed then true else origin_in origin t end.
Definition check_origin (origins : option (list bytes)) (header : bytes) : bool :=
  match origins with
  | None => true
  | Some l => if text_eqb header [] then false else origin_in header l
  end.

(* What happens to a connection after the subscription: an item comes from the monitor, the monitor closes the subscription, the server's context is done, or
   the client goes away *)
Inductive input := Item (event : nat) (error : option bytes) | Slow | Done | Gone.
(* Frames and messages written, log entries, and the ends of the subscription and of the connection *)
Inductive output := State | Event (event : nat) (error : option bytes) | TryAgainLater | GoingAway | Logged | Unsubscribe | Disconnect.
(* webmonitor.go:131-155; ok: whether the n-th WriteJSON succeeds *)
Fixpoint loop (ok : nat -> bool) (n : nat) (l : list input) : list output :=
  match l with
  | [] => []
  | Item e err :: t => if ok n then Event e err :: loop ok (S n) t else [Logged; Unsubscribe; Disconnect]     (* 139-149 *)
  | Slow :: _ => [Logged; TryAgainLater; Unsubscribe; Disconnect]                                            (* 134-138 *)
  | Done :: _ => [GoingAway; Unsubscribe; Disconnect]                                                        (* 151-153 *)
  | Gone :: t => loop ok n t       (* 103-107: the library calls the close handler when reading, and nothing reads *)
  end.
(* webmonitor.go:88-156 handle.  upgraded: the origin was accepted and the upgrade succeeded; subscribed: monitor.go's Subscribe succeeded *)
Definition handle (upgraded subscribed : bool) (ok : nat -> bool) (l : list input) : list output :=
  if negb upgraded then [Logged]                                                                             (* 96-100 *)
  else if negb subscribed then [GoingAway; Disconnect]                                                       (* 109-114 *)
  else if ok O then State :: loop ok 1 l else [Logged; Unsubscribe; Disconnect].                             (* 117-127 *)
