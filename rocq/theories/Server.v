(* Server.v: model of server/server.go, server/program.go and server/account.go: programs, their
   reference counts, and accounts.

   A step is one critical section of the server mutex, or what a request does between two of
   them; every interleaving of the steps of any number of requests is a history.  Requests are
   stages of a function's execution, with the program references in the function's variables.
   What happens outside of this model (compilation, storage, process creation, execution) is a
   choice given with the step.
   Simplifications: a module is identified with its hash (no collisions); an account that does
   not exist is one that has nothing (the code answers the same to both); the maps of all
   accounts are one list, with the principal in the key; a random instance id is a given one;
   the goroutine that drives an instance continues as the thread that started it.  Instances
   are only numbers here (Lifecycle.v). *)
From Verif Require Export Base.

(* program.go:26-37 (image is nil when closed) *)
Record obj := Obj { pid : Z; refs : Z; opened : bool }.
(* server.go: responses and other events that are seen by clients, in order *)
Inductive hev :=
| HStored (p m : Z)                        (* found in storage at startup, for the owner *)
| HSupplied (p m : Z)                      (* p sent the contents of module m *)
| HPin (p m : Z) (tags : list Z)           (* module pinned *)
| HUnpin (p m : Z) (ok : bool)             (* UnpinModule: response *)
| HInfo (p m : Z) (r : option (list Z))    (* ModuleInfo: response *)
| HModules (p : Z) (r : list (Z * list Z)) (* Modules: response *)
| HContent (p m : Z) (ok : bool)           (* ModuleContent: response *)
| HNew (p m : Z) (ok : bool)               (* NewInstance: whether the module was found *)
| HLaunch (p i m : Z) (n : nat)            (* instance number n created with id i *)
| HSnap (p i m : Z)                        (* p's instance i was snapshotted as module m *)
| HInst (p i : Z) (r : option nat)         (* request on an instance: the one found *)
| HGone (n : nat)                          (* instance deleted *)
| HClosed.                                 (* Shutdown *)

(* The arguments of a request that supplies or launches a module: the principal (none if
   anonymous), the content, the module options and the launch options (the instance id). *)
Record args := Args { pri : option Z; content : Z; pin : bool; tags : list Z; launch : option Z }.

Inductive iop := IBorrow | IRef | IResume | IDelete | ISnapshot (newid : Z) (ts : list Z).
Inductive stage :=
(* to do *)
| SRef (hash : Z) (a : args)               (* _loadKnownModule(Instance): _refProgram *)
| SBuild (hash : option Z) (a : args)      (* _loadUnknownModule(Instance): _buildProgram *)
| SRefPinned (p m : Z) (i : Z)             (* NewInstance *)
| SInfo (p m : Z) | SModules (p : Z) | SContent (p m : Z) | SPin (p m : Z) (ts : list Z) | SUnpin (p m : Z)
| SInst (p i : Z) (o : iop)                (* requests on an instance *)
(* under way *)
| SUse (hash : Z) (o : nat) (a : args)     (* _loadKnownModule(Instance) after _refProgram *)
| SReg (o : nat) (a : args) (l : list nat) (* _registerProgramRef(Instance); then unreference l *)
| SStart (n : nat) (o : nat)               (* _runOrDeleteInstance *)
| SDrive (n : nat) (o : nat)               (* driveInstance *)
| SDelete (n : nat) (l : list nat)         (* deleteNonexistentInstance; then unreference l *)
| SAnnihilate (n : nat)                    (* DeleteInstance after _getInstance *)
| SResume (n : nat) (o : nat)              (* ResumeInstance after _getInstanceRefProgram *)
| SSnap (p i newid : Z) (ts : list Z) (o : nat) (* _snapshot after _getInstanceRefProgram *)
| SHold (o : nat)                          (* SuspendInstance, DebugInstance; moduleContent until Close *)
| SUnref (l : list nat).                   (* deferred unrefProgram calls *)

Record st := St {
  objs : list obj;
  closed : bool;                           (* s.programs, s.accounts and s.anonymous are nil *)
  progs : list (Z * nat);                  (* s.programs *)
  pins : list (Z * nat * list Z);          (* acc.programs *)
  insts : list (Z * Z * nat * nat);        (* acc.instances: account, id, instance, program *)
  anon : list nat;                         (* s.anonymous *)
  ninsts : nat;                            (* instances created so far *)
  threads : list stage;
  hist : list hev                          (* latest first *) }.

Definition set_nth {A} (n : nat) (x : A) (l : list A) : list A := firstn n l ++ x :: skipn (S n) l.

(* ---- program.go ---- *)

(* program.go:161-168 program.ref *)
Definition ref (o : nat) (l : list obj) : res (list obj) :=
  match nth_error l o with
  | None => Panic
  | Some b => if refs b <=? 0 then Panic else Ok (set_nth o (Obj (pid b) (refs b + 1) (opened b)) l)
  end.
(* program.go:170-181 program.unref: closes the image when the count becomes zero *)
Definition unref (o : nat) (l : list obj) : res (list obj) :=
  match nth_error l o with
  | None => Panic
  | Some b => if refs b <=? 0 then Panic
              else Ok (set_nth o (Obj (pid b) (refs b - 1) (if refs b - 1 =? 0 then false else opened b)) l)
  end.
Fixpoint unref_all (os : list nat) (l : list obj) : res (list obj) :=
  match os with [] => Ok l | o :: t => do l' <- unref o l; unref_all t l' end.

(* ---- lookups ---- *)

Definition find_prog (s : st) (m : Z) : option nat :=
  option_map snd (find (fun x => fst x =? m) (progs s)).
Definition pin_is (p : Z) (o : nat) (x : Z * nat * list Z) : bool := (fst (fst x) =? p) && Nat.eqb (snd (fst x)) o.
Definition find_pin (s : st) (p : Z) (o : nat) : option (list Z) := option_map snd (find (pin_is p o) (pins s)).
Definition inst_is (p i : Z) (x : Z * Z * nat * nat) : bool := (fst (fst (fst x)) =? p) && (snd (fst (fst x)) =? i).
Definition find_inst (s : st) (p i : Z) : option (nat * nat) :=
  option_map (fun x => (snd (fst x), snd x)) (find (inst_is p i) (insts s)).
Definition inst_no (n : nat) (x : Z * Z * nat * nat) : bool := Nat.eqb (snd (fst x)) n.

Definition with_objs (s : st) (l : list obj) : st :=
  St l (closed s) (progs s) (pins s) (insts s) (anon s) (ninsts s) (threads s) (hist s).
Definition with_pins (s : st) (l : list (Z * nat * list Z)) : st :=
  St (objs s) (closed s) (progs s) l (insts s) (anon s) (ninsts s) (threads s) (hist s).
Definition log (s : st) (e : hev) : st :=
  St (objs s) (closed s) (progs s) (pins s) (insts s) (anon s) (ninsts s) (threads s) (e :: hist s).
(* the thread moves to another stage *)
Definition goto (s : st) (t : nat) (g : stage) : res st :=
  Ok (St (objs s) (closed s) (progs s) (pins s) (insts s) (anon s) (ninsts s) (set_nth t g (threads s)) (hist s)).
Definition done : stage := SUnref [].

(* ---- account.go ---- *)

(* account.go:57-72 account.ensureProgramRef *)
Definition ensureProgramRef (s : st) (p : Z) (o : nat) (ts : list Z) : res st :=
  let m := match nth_error (objs s) o with Some b => pid b | None => 0 end in
  match find_pin s p o with
  | None =>
      do l <- ref o (objs s);
      Ok (log (with_pins (with_objs s l) ((p, o, ts) :: pins s)) (HPin p m ts))
  | Some old =>
      match ts with
      | [] => Ok (log s (HPin p m ts))
      | _ => Ok (log (with_pins s (map (fun x => if pin_is p o x then (p, o, ts) else x) (pins s))) (HPin p m ts))
      end
  end.

(* ---- server.go ---- *)

(* server.go:1327-1350 _mergeProgramRef; not called when closed *)
Definition merge (s : st) (o : nat) : res (st * nat) :=
  match nth_error (objs s) o with
  | None => Panic
  | Some b =>
      match find_prog s (pid b) with
      | None => Ok (St (objs s) (closed s) ((pid b, o) :: progs s) (pins s) (insts s) (anon s) (ninsts s) (threads s) (hist s), o)
      | Some e =>
          if Nat.eqb e o then
            if refs b <? 2 then Panic
            else do l <- unref o (objs s); Ok (with_objs s l, o)
          else do l <- unref o (objs s); Ok (with_objs s l, e)
      end
  end.

(* What a step may choose: whether something outside of the model fails, and how the process
   start or the run ends. *)
Inductive choice := CFail | COk | CStopped | CNonexistent.

(* server.go:1114-1141 _registerProgramRef, server.go:1256-1311 _registerProgramRefInstance *)
Definition register (s : st) (t o : nat) (a : args) (l : list nat) (c : choice) : res st :=
  match c with
  | CFail => goto s t (SUnref (o :: l))   (* resources, storage *)
  | _ =>
      if (pin a && match pri a with None => true | _ => false end) then goto s t (SUnref (o :: l))
      else if closed s then goto s t (SUnref (o :: l))
      else if match launch a, pri a with
              | Some i, Some p => match find_inst s p i with Some _ => true | None => false end
              | _, _ => false
              end then goto s t (SUnref (o :: l))
      else
        do ' (s1, c) <- merge s o;
        do s2 <- match pin a, pri a with true, Some p => ensureProgramRef s1 p c (tags a) | _, _ => Ok s1 end;
        match launch a with
        | None => goto s2 t (SUnref l)
        | Some i =>
            let n := ninsts s2 in
            let m := match nth_error (objs s2) c with Some b => pid b | None => 0 end in
            do s3 <- match pri a with
                     | Some p => do l1 <- ref c (objs s2);
                                 Ok (log (St l1 (closed s2) (progs s2) (pins s2) ((p, i, n, c) :: insts s2) (anon s2) (S n) (threads s2) (hist s2)) (HLaunch p i m n))
                     | None => Ok (St (objs s2) (closed s2) (progs s2) (pins s2) (insts s2) (n :: anon s2) (S n) (threads s2) (hist s2))
                     end;
            do l2 <- ref c (objs s3);
            goto (with_objs s3 l2) t (SStart n c)
        end
  end.

(* server.go:1311-1325 deleteNonexistentInstance *)
Definition delete_inst (s : st) (n : nat) : res st :=
  match find (inst_no n) (insts s) with
  | Some x =>
      do l <- unref (snd x) (objs s);
      Ok (log (St l (closed s) (progs s) (pins s) (filter (fun y => negb (inst_no n y)) (insts s)) (anon s) (ninsts s) (threads s) (hist s)) (HGone n))
  | None => Ok (St (objs s) (closed s) (progs s) (pins s) (insts s) (filter (fun k => negb (Nat.eqb k n)) (anon s)) (ninsts s) (threads s) (hist s))
  end.

(* One step of a thread. *)
Definition run (s : st) (t : nat) (c : choice) : res st :=
  match nth_error (threads s) t with
  | None => Err
  | Some g =>
      match g with
      (* server.go:1084-1098 _refProgram; prog.image.ModuleSize() of a closed image is a nil
         dereference; CFail: size mismatch *)
      | SRef h a =>
          match find_prog s h with
          | None => goto s t (SBuild (Some h) a)
          | Some o =>
              match nth_error (objs s) o with
              | Some b => if negb (opened b) then Panic
                          else match c with
                               | CFail => goto s t done
                               | _ => do l <- ref o (objs s); goto (with_objs s l) t (SUse h o a)
                               end
              | None => Panic
              end
          end
      (* server.go:249-258, 405-424: content validation, limits, entry function, instance image *)
      | SUse h o a =>
          match c with
          | CFail => goto s t (SUnref [o])
          | _ => if content a =? h
                 then goto (match pri a with Some p => log s (HSupplied p (content a)) | None => s end) t (SReg o a [])
                 else goto s t (SUnref [o])
          end
      (* program.go:56-133 _buildProgram: the id is the hash of the content, which is checked if
         given *)
      | SBuild h a =>
          match c with
          | CFail => goto s t done
          | _ => if match h with Some h => content a =? h | None => true end
                 then let s1 := with_objs s (objs s ++ [Obj (content a) 1 true]) in
                      goto (match pri a with Some p => log s1 (HSupplied p (content a)) | None => s1 end) t (SReg (length (objs s)) a [])
                 else goto s t done
          end
      (* server.go:293-325 NewInstance *)
      | SRefPinned p m i =>
          match find_prog s m with
          | None => goto (log s (HNew p m false)) t done
          | Some o =>
              match find_pin s p o with
              | None => goto (log s (HNew p m false)) t done
              | Some _ => do l <- ref o (objs s); goto (log (with_objs s l) (HNew p m true)) t (SReg o (Args (Some p) m false [] (Some i)) [])
              end
          end
      (* server.go:501-541 ModuleInfo *)
      | SInfo p m =>
          let r := match find_prog s m with None => None | Some o => find_pin s p o end in
          goto (log s (HInfo p m r)) t done
      (* server.go:543-576 Modules *)
      | SModules p =>
          let r := map (fun x => (match nth_error (objs s) (snd (fst x)) with Some b => pid b | None => 0 end, snd x))
                       (filter (fun x => fst (fst x) =? p) (pins s)) in
          goto (log s (HModules p r)) t done
      (* server.go:578-617 ModuleContent: prog.image is used *)
      | SContent p m =>
          match find_prog s m with
          | None => goto (log s (HContent p m false)) t done
          | Some o =>
              match find_pin s p o with
              | None => goto (log s (HContent p m false)) t done
              | Some _ => do l <- ref o (objs s); goto (log (with_objs s l) (HContent p m true)) t (SHold o)
              end
          end
      (* server.go:643-694 PinModule *)
      | SPin p m ts =>
          match find_prog s m with
          | None => goto s t done
          | Some o =>
              if match find_pin s p o with
                 | Some _ => true
                 | None => existsb (fun x => (fst (fst (fst x)) =? p) && Nat.eqb (snd x) o) (insts s)
                 end
              then do s1 <- ensureProgramRef s p o ts; goto s1 t done
              else goto s t done
          end
      (* server.go:696-730 UnpinModule, account.go:82-91 *)
      | SUnpin p m =>
          match find_prog s m with
          | None => goto (log s (HUnpin p m false)) t done
          | Some o =>
              match find_pin s p o with
              | None => goto (log s (HUnpin p m false)) t done
              | Some _ =>
                  do l <- unref o (objs s);
                  goto (log (with_pins (with_objs s l) (filter (fun x => negb (pin_is p o x)) (pins s))) (HUnpin p m true)) t done
              end
          end
      (* server.go:1195-1236 _getInstanceProgramID, _getInstanceRefProgram *)
      | SInst p i o =>
          match find_inst s p i with
          | None => goto (log s (HInst p i None)) t done
          | Some (n, b) =>
              let s1 := log s (HInst p i (Some n)) in
              match o with
              | IBorrow => goto s1 t done
              | IDelete => goto s1 t (SAnnihilate n)
              | _ =>
                  do l <- ref b (objs s1);
                  let s2 := with_objs s1 l in
                  match o with
                  | IResume => goto s2 t (SResume n b)
                  | ISnapshot m ts => goto s2 t (SSnap p i m ts b)
                  | _ => goto s2 t (SHold b)
                  end
              end
          end
      (* server.go:873-886: the instance is not stopped, or does not exist *)
      | SAnnihilate n => match c with CFail => goto s t done | _ => goto s t (SDelete n []) end
      (* server.go:846-856 *)
      | SResume n o => match c with CFail => goto s t (SUnref [o]) | _ => goto s t (SStart n o) end
      (* server.go:923-953 _snapshot *)
      | SSnap p i m ts o =>
          match c with
          | CFail => goto s t (SUnref [o])
          | _ => goto (log (with_objs s (objs s ++ [Obj m 1 true])) (HSnap p i m)) t
                      (SReg (length (objs s)) (Args (Some p) m true ts None) [o])
          end
      | SReg o a l => register s t o a l c
      (* server.go:1166-1181 _runOrDeleteInstance.  On error its own deferred call and that of
         its caller both unreference the program. *)
      | SStart n o =>
          match c with
          | CFail => goto s t (SDelete n [o; o])
          | CStopped => goto s t (SUnref [o])
          | _ => goto s t (SDrive n o)
          end
      (* server.go:1184-1190 driveInstance *)
      | SDrive n o => match c with CNonexistent => goto s t (SDelete n [o]) | _ => goto s t (SUnref [o]) end
      | SDelete n l => do s1 <- delete_inst s n; goto s1 t (SUnref l)
      (* server.go:819-838 SuspendInstance, :639 moduleContent.Close *)
      | SHold o => goto s t (SUnref [o])
      (* server.go:1100-1108 unrefProgram *)
      | SUnref [] => Err
      | SUnref (o :: l) => do l1 <- unref o (objs s); goto (with_objs s l1) t (SUnref l)
      end
  end.

(* server.go:150-179 Shutdown (the critical section), account.go:40-53 *)
Definition shutdown (s : st) : res st :=
  do l1 <- unref_all (map snd (progs s)) (objs s);
  do l2 <- unref_all (map (fun x => snd (fst x)) (pins s)) l1;
  do l3 <- unref_all (map snd (insts s)) l2;
  Ok (log (St l3 true [] [] [] [] (ninsts s) (threads s) (hist s)) HClosed).

(* requests that clients can make *)
Definition request (g : stage) : bool :=
  match g with
  | SRef _ _ | SBuild _ _ | SRefPinned _ _ _ | SInfo _ _ | SModules _ | SContent _ _ | SPin _ _ _ | SUnpin _ _ | SInst _ _ _ => true
  | _ => false
  end.
Inductive event := ERequest (g : stage) | ERun (t : nat) (c : choice) | EShutdown.
Definition step (s : st) (e : event) : res st :=
  match e with
  | ERequest g => if request g then Ok (St (objs s) (closed s) (progs s) (pins s) (insts s) (anon s) (ninsts s) (threads s ++ [g]) (hist s)) else Err
  | ERun t c => run s t c
  | EShutdown => shutdown s
  end.
Fixpoint steps (s : st) (l : list event) : res st :=
  match l with [] => Ok s | e :: t => do s' <- step s e; steps s' t end.

(* server.go:60-131 New: the stored programs are loaded, and pinned for the owner if there is
   one *)
Fixpoint load (s : st) (owner : option Z) (ids : list Z) : st :=
  match ids with
  | [] => s
  | m :: t =>
      let o := length (objs s) in
      let s1 := match owner with
                | None => St (objs s ++ [Obj m 1 true]) false ((m, o) :: progs s) (pins s) [] [] 0 [] (hist s)
                | Some p => St (objs s ++ [Obj m 2 true]) false ((m, o) :: progs s) ((p, o, []) :: pins s) [] [] 0 [] (HPin p m [] :: HStored p m :: hist s)
                end in
      load s1 owner t
  end.
Definition start (owner : option Z) (ids : list Z) : st := load (St [] false [] [] [] [] 0 [] []) owner ids.
