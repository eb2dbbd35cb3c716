(* WebsocketSpec.v: messages and reads of a websocket connection. *)
From Verif Require Export Websocket.

Definition is_hint (m : message * bool) : bool := match fst m with Hint => true | _ => false end.
Definition writes_of (l : list (message * bool)) : list bytes := flat_map (fun m => match fst m with Bin b => [b] | Hint => [] end) l.
(* Data that was written, by the results of Write calls *)
Definition accepted (l : list (message * bool)) : list bytes :=
  flat_map (fun m => match m with (Bin b, true) => [b] | _ => [] end) l.
Definition data_of (l : list readres) : bytes := flat_map (fun r => match r with Data b => b | NoMore => [] end) l.
(* Bounds of the steps left; zero when all is done *)
Definition rleft (s : ws) : nat :=
  match r_todo s with
  | [] => 0
  | _ => 6 * length (r_todo s) - match r_pc s with RIdle => 0 | RWant => 1 | RHave => 2 | RWriting => 3 | RStore => 4 | RUnlock => 5 end
  end.
Definition wleft (s : ws) : nat :=
  match w_pc s with
  | WIdle => 5 * length (w_todo s) | WUnlock => 5 * length (w_todo s) + 1
  | WWant => 5 * length (w_todo s) - 1 | WHave _ => 5 * length (w_todo s) - 2 | WWriting _ => 5 * length (w_todo s) - 3
  end.
