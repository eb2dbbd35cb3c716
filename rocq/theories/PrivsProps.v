(* PrivsProps.v: C118. *)
From Verif Require Export Privs.
From Coq Require Import Lia.

(* the effect of a system call that succeeds *)
Definition eff (p : proc) (x : sys) : proc :=
  let 'Proc uid gid groups perm amb nnp pd dump um rl host (Mounts pr tm pdir pmnt pfd xd piv old cwd wr as m) := p in
  match x with
  | Setrlimit r v => Proc uid gid groups perm amb nnp pd dump um (fun r' => if r' =? r then Some v else rl r') host m
  | Umask v => Proc uid gid groups perm amb nnp pd dump v rl host m
  | Setreuid id => set_ids p (Some id) gid
  | Setregid id => set_ids p uid (Some id)
  | SetgroupsNone => Proc uid gid [] perm amb nnp pd dump um rl host m
  | SethostnameEmpty | SetdomainnameEmpty => Proc uid gid groups perm amb nnp pd dump um rl false m
  | MountPrivate => set_mnt p (Mounts true tm pdir pmnt pfd xd piv old cwd wr)
  | MountTmpfs => set_mnt p (Mounts pr true pdir pmnt pfd xd piv old cwd true)
  | MkdirProc => set_mnt p (Mounts pr tm true pmnt pfd xd piv old cwd wr)
  | MountProc => set_mnt p (Mounts pr tm pdir true pfd xd piv old cwd wr)
  | OpenProc => set_mnt p (Mounts pr tm pdir pmnt true xd piv old cwd wr)
  | UnmountProc => set_mnt p (Mounts pr tm pdir false pfd xd piv old cwd wr)
  | RemoveProc => set_mnt p (Mounts pr tm false pmnt pfd xd piv old cwd wr)
  | MkdirX => set_mnt p (Mounts pr tm pdir pmnt pfd true piv old cwd wr)
  | PivotRoot => set_mnt p (Mounts pr tm pdir pmnt pfd xd true old cwd wr)
  | ChdirRoot => set_mnt p (Mounts pr tm pdir pmnt pfd xd piv old (if piv then InRoot else InHost) wr)
  | UnmountOld => set_mnt p (Mounts pr tm pdir pmnt pfd xd piv false cwd wr)
  | ChdirX => set_mnt p (Mounts pr tm pdir pmnt pfd xd piv old InX wr)
  | RemountReadOnly => set_mnt p (Mounts pr tm pdir pmnt pfd xd piv old cwd false)
  | CapsetZero => Proc uid gid groups [] [] nnp pd dump um rl host m
  | AmbientClear => Proc uid gid groups perm [] nnp pd dump um rl host m
  | SetPdeathsig => Proc uid gid groups perm amb nnp true dump um rl host m
  | SetNoNewPrivs => Proc uid gid groups perm amb true pd dump um rl host m
  | SetNotDumpable => Proc uid gid groups perm amb nnp pd false um rl host m
  | Fork => Proc uid gid groups perm amb nnp false dump um rl host m
  | Exec => Proc uid gid groups amb amb nnp pd true um rl host m
  | CheckParent => p
  end.
Lemma sysdo_eff x p p' : sysdo x p = Some p' -> p' = eff p x.
Proof.
  destruct p as [uid gid gs pe am nn pd du um rl ho [m1 m2 m3 m4 m5 m6 m7 m8 m9 m10]].
  destruct x; cbn [sysdo eff]; repeat match goal with |- context [if ?c then _ else _] => destruct c end;
    intro H; try discriminate H; injection H as <-; reflexivity.
Qed.
Lemma run_must l : forall f p q, run (must l) f p = Some q -> q = fold_left eff l p.
Proof.
  induction l as [|x l IH]; intros f p q H; [now injection H as <-|].
  cbn in H. destruct (hd false f); [discriminate|]. destruct (sysdo x p) as [p'|] eqn:E; [|discriminate].
  apply sysdo_eff in E as ->. exact (IH _ _ _ H).
Qed.
Lemma run_maybe x l f p q : run ((x, true) :: must l) f p = Some q ->
  q = fold_left eff l p \/ q = fold_left eff l (eff p x).
Proof.
  cbn [run]. intro H. destruct (hd false f); [left; eapply run_must, H|].
  destruct (sysdo x p) as [p'|] eqn:E; [right|left; eapply run_must, H]. apply sysdo_eff in E as ->. eapply run_must, H.
Qed.
Lemma must_app a b : must a ++ must b = must (a ++ b).
Proof. unfold must. now rewrite map_app. Qed.

(* what is in effect in a process *)
Definition no_privileges (p : proc) : Prop :=
  k_permitted p = [] /\ k_ambient p = [] /\ k_nnp p = true /\ k_dumpable p = false /\ k_pdeath p = true /\ k_umask p = 511.
Definition limits (p : proc) (l : list (Z * Z)) : Prop := forall r v, In (r, v) l -> k_rlim p r = Some v.
(* alone in a root directory which is empty and read-only, in a mount namespace that doesn't affect the host's *)
Definition isolated_root (m : mounts) : Prop :=
  m_private m = true /\ m_pivoted m = true /\ m_oldroot m = false /\ m_cwd m = InX /\ m_writable m = false /\ m_procmnt m = false.

(* C118: however the system calls fail, in a process that gets to load a program: no capabilities are left, none can be gained,
   it dies with its parent, it can't be traced, the resource limits are in effect; and if namespaces haven't been disabled, it has
   the executor's (or the only) user and group ids, no supplementary groups, and nothing of the host's filesystem. *)
Theorem program_privileges disabled single faults p0 p : run (to_guest disabled single) faults p0 = Some p ->
  no_privileges p /\
  limits p [(RLIMIT_FSIZE, 0); (RLIMIT_MEMLOCK, 0); (RLIMIT_MSGQUEUE, 0); (RLIMIT_RTPRIO, 0); (RLIMIT_SIGPENDING, 0);
            (RLIMIT_DATA, 4096); (RLIMIT_STACK, 12288); (RLIMIT_NOFILE, 5); (RLIMIT_NPROC, 0)] /\
  (disabled = false ->
     k_uid p = Some (if single then 1 else 2) /\ k_gid p = Some (if single then 1 else 2) /\ (single = false -> k_groups p = []) /\
     k_host p = false /\ isolated_root (k_mnt p) /\
     limits p [(RLIMIT_AS, 12288 + 3 * 4096 + 3 * 2 ^ 31); (RLIMIT_CORE, 0)]).
Proof.
  unfold to_guest, childMain, executor_main, spawn_child, loader_main. rewrite <- !app_assoc, !must_app. intro H.
  apply run_maybe in H. destruct p0 as [uid gid gs pe am nn pd du um rl ho [m1 m2 m3 m4 m5 m6 m7 m8 m9 m10]].
  destruct disabled, single, H as [-> | ->].
  all: split; [repeat split; vm_compute; reflexivity|].
  all: split; [intros r v I; cbn [In] in I; repeat (destruct I as [I|I]; [injection I as <- <-; vm_compute; reflexivity|]); destruct I|].
  all: intro D; try discriminate D.
  all: split; [vm_compute; reflexivity|]; split; [vm_compute; reflexivity|]; split; [intro; try discriminate; vm_compute; reflexivity|];
    split; [vm_compute; reflexivity|]; split; [repeat split; vm_compute; reflexivity|].
  all: intros r v I; cbn [In] in I; repeat (destruct I as [I|I]; [injection I as <- <-; vm_compute; reflexivity|]); destruct I.
Qed.
Print Assumptions program_privileges.

(* C118: the same of the executor, when it begins, apart from what it does itself. *)
Theorem executor_privileges disabled single faults p0 p : run (childMain disabled single) faults p0 = Some p ->
  k_permitted p = [] /\ k_ambient p = [] /\ k_pdeath p = true /\ k_umask p = 511 /\
  (disabled = false ->
     k_uid p = Some (if single then 1 else 2) /\ k_gid p = Some (if single then 1 else 2) /\ (single = false -> k_groups p = []) /\
     k_host p = false /\ isolated_root (k_mnt p)).
Proof.
  unfold childMain. intro H.
  apply run_maybe in H. destruct p0 as [uid gid gs pe am nn pd du um rl ho [m1 m2 m3 m4 m5 m6 m7 m8 m9 m10]].
  destruct disabled, single, H as [-> | ->].
  all: split; [vm_compute; reflexivity|]; split; [vm_compute; reflexivity|]; split; [vm_compute; reflexivity|]; split; [vm_compute; reflexivity|].
  all: intro D; try discriminate D.
  all: split; [vm_compute; reflexivity|]; split; [vm_compute; reflexivity|]; split; [intro; try discriminate; vm_compute; reflexivity|];
    split; [vm_compute; reflexivity|repeat split; vm_compute; reflexivity].
Qed.
Print Assumptions executor_privileges.

(* limits that allow as much *)
Definition with_rl (p : proc) (rl : Z -> option Z) : proc :=
  Proc (k_uid p) (k_gid p) (k_groups p) (k_permitted p) (k_ambient p) (k_nnp p) (k_pdeath p) (k_dumpable p) (k_umask p) rl (k_host p) (k_mnt p).
Definition fits (h : option Z) (v : Z) : bool := match h with Some h => v <=? h | None => true end.
Lemma sysdo_rl x p q rl : (forall r v, fits (k_rlim p r) v = true -> fits (rl r) v = true) -> sysdo x p = Some q ->
  exists rl', sysdo x (with_rl p rl) = Some (with_rl q rl') /\ (forall r v, fits (k_rlim q r) v = true -> fits (rl' r) v = true).
Proof.
  destruct p as [uid gid gs pe am nn pd du um rl0 ho [m1 m2 m3 m4 m5 m6 m7 m8 m9 m10]]. cbn [k_rlim]. intros L H.
  destruct x; cbn [sysdo with_rl k_uid k_gid k_groups k_permitted k_ambient k_nnp k_pdeath k_dumpable k_umask k_rlim k_host k_mnt] in *.
  - specialize (L r v) as Lr. unfold fits in Lr. destruct (match rl0 r with Some h => v <=? h | None => true end); [|discriminate].
    rewrite Lr by reflexivity. injection H as <-. eexists. split; [reflexivity|]. cbn [k_rlim]. intros r' v'. destruct (r' =? r); auto.
  - injection H as <-. eexists. split; [reflexivity|exact L].
  - change (holds _ CAP_SETUID) with (existsb (Z.eqb CAP_SETUID) pe) in *. destruct (_ || _); [|discriminate]. injection H as <-. eexists. split; [reflexivity|exact L].
  - change (holds _ CAP_SETGID) with (existsb (Z.eqb CAP_SETGID) pe) in *. destruct (_ || _); [|discriminate]. injection H as <-. eexists. split; [reflexivity|exact L].
  - change (holds _ CAP_SETGID) with (existsb (Z.eqb CAP_SETGID) pe) in *. destruct (existsb _ _); [|discriminate]. injection H as <-. eexists. split; [reflexivity|exact L].
  - change (holds _ CAP_SYS_ADMIN) with (existsb (Z.eqb CAP_SYS_ADMIN) pe) in *. destruct (existsb _ _); [|discriminate]. injection H as <-. eexists. split; [reflexivity|exact L].
  - change (holds _ CAP_SYS_ADMIN) with (existsb (Z.eqb CAP_SYS_ADMIN) pe) in *. destruct (existsb _ _); [|discriminate]. injection H as <-. eexists. split; [reflexivity|exact L].
  - change (holds _ CAP_SYS_ADMIN) with (existsb (Z.eqb CAP_SYS_ADMIN) pe) in *. destruct (existsb _ _); [|discriminate]. injection H as <-. eexists. split; [reflexivity|exact L].
  - change (holds _ CAP_SYS_ADMIN) with (existsb (Z.eqb CAP_SYS_ADMIN) pe) in *. destruct (existsb _ _); [|discriminate]. injection H as <-. eexists. split; [reflexivity|exact L].
  - change (holds _ CAP_DAC_OVERRIDE) with (existsb (Z.eqb CAP_DAC_OVERRIDE) pe) in *. destruct (_ && _); [|discriminate]. injection H as <-. eexists. split; [reflexivity|exact L].
  - change (holds _ CAP_SYS_ADMIN) with (existsb (Z.eqb CAP_SYS_ADMIN) pe) in *. destruct (existsb _ _); [|discriminate]. destruct m3; [|discriminate]. injection H as <-. eexists. split; [reflexivity|exact L].
  - destruct m4; [|discriminate]. injection H as <-. eexists. split; [reflexivity|exact L].
  - change (holds _ CAP_SYS_ADMIN) with (existsb (Z.eqb CAP_SYS_ADMIN) pe) in *. destruct (existsb _ _); [|discriminate]. destruct m4; [|discriminate]. injection H as <-. eexists. split; [reflexivity|exact L].
  - change (holds _ CAP_DAC_OVERRIDE) with (existsb (Z.eqb CAP_DAC_OVERRIDE) pe) in *. destruct (_ && _); [|discriminate]. injection H as <-. eexists. split; [reflexivity|exact L].
  - change (holds _ CAP_DAC_OVERRIDE) with (existsb (Z.eqb CAP_DAC_OVERRIDE) pe) in *. destruct (_ && _); [|discriminate]. injection H as <-. eexists. split; [reflexivity|exact L].
  - change (holds _ CAP_SYS_ADMIN) with (existsb (Z.eqb CAP_SYS_ADMIN) pe) in *. destruct (existsb _ _); [|discriminate]. destruct (_ && _); [|discriminate]. injection H as <-. eexists. split; [reflexivity|exact L].
  - injection H as <-. eexists. split; [reflexivity|exact L].
  - change (holds _ CAP_SYS_ADMIN) with (existsb (Z.eqb CAP_SYS_ADMIN) pe) in *. destruct (existsb _ _); [|discriminate]. destruct m7; [|discriminate]. injection H as <-. eexists. split; [reflexivity|exact L].
  - change (holds _ CAP_DAC_OVERRIDE) with (existsb (Z.eqb CAP_DAC_OVERRIDE) pe) in *. destruct (_ && _); [|discriminate]. injection H as <-. eexists. split; [reflexivity|exact L].
  - change (holds _ CAP_SYS_ADMIN) with (existsb (Z.eqb CAP_SYS_ADMIN) pe) in *. destruct (existsb _ _); [|discriminate]. destruct m7; [|discriminate]. injection H as <-. eexists. split; [reflexivity|exact L].
  - injection H as <-. eexists. split; [reflexivity|exact L].
  - injection H as <-. eexists. split; [reflexivity|exact L].
  - injection H as <-. eexists. split; [reflexivity|exact L].
  - injection H as <-. eexists. split; [reflexivity|exact L].
  - injection H as <-. eexists. split; [reflexivity|exact L].
  - injection H as <-. eexists. split; [reflexivity|exact L].
  - injection H as <-. eexists. split; [reflexivity|exact L].
  - injection H as <-. eexists. split; [reflexivity|exact L].
Qed.
(* every call succeeds *)
Fixpoint all_succeed (l : prog) (p : proc) : option proc :=
  match l with [] => Some p | (x, _) :: l => match sysdo x p with Some p => all_succeed l p | None => None end end.
Lemma all_succeed_rl l : forall p q rl, (forall r v, fits (k_rlim p r) v = true -> fits (rl r) v = true) -> all_succeed l p = Some q ->
  exists rl', run l [] (with_rl p rl) = Some (with_rl q rl').
Proof.
  induction l as [|[x i] l IH]; intros p q rl L H; cbn [all_succeed run hd tl] in *; [injection H as <-; eauto|].
  destruct (sysdo x p) as [p'|] eqn:E; [|discriminate]. destruct (sysdo_rl x p p' rl L E) as (rl' & -> & L'). eapply IH; eassumption.
Qed.
(* C118: without faults it gets there, in new namespaces, if the server's own limits aren't lower. *)
Theorem program_reached single gs um rl :
  (forall r h, rl r = Some h -> 12288 + 3 * 4096 + 3 * 2 ^ 31 <= h) ->
  exists p, run (to_guest false single) [] (child_init single gs um rl) = Some p.
Proof.
  intro L.
  assert (A : exists q, all_succeed (to_guest false single) (child_init single gs um (fun _ => Some 6442475520)) = Some q).
  { destruct single; eexists; vm_compute; reflexivity. }
  destruct A as [q A]. apply (all_succeed_rl _ _ _ rl) in A.
  - destruct A as [rl' A]. eexists. exact A.
  - intros r v. cbn [child_init k_rlim fits]. intro V. apply Z.leb_le in V. unfold fits. destruct (rl r) eqn:E; [|reflexivity].
    apply L in E. apply Z.leb_le. lia.
Qed.
Print Assumptions program_reached.
Example program_reached_case : run (to_guest false false) [] (child_init false [4; 24] 18 (fun _ => None)) <> None /\
  run (to_guest false false) (repeat false 20 ++ [true]) (child_init false [4; 24] 18 (fun _ => None)) = None /\
  run (to_guest true false) [] (Proc (Some 1000) (Some 1000) [4] [] [] false true true 18 (fun _ => Some 1048576) true new_mounts) <> None.
Proof. vm_compute. repeat split; discriminate. Qed.

(** ** The parent's death *)
Definition steady (single : bool) (p : proc) : Prop := k_pdeath p = true /\ (single = true -> k_uid p = Some 1 /\ k_gid p = Some 1).
Definition harmless (single : bool) (x : sys) : bool :=
  match x with Setreuid id | Setregid id => single && (id =? 1) | Fork => false | _ => true end.
Lemma sysdo_steady single x p q : harmless single x = true -> steady single p -> sysdo x p = Some q -> steady single q.
Proof.
  intros N [D I] H. apply sysdo_eff in H as ->.
  destruct p as [uid gid gs pe am nn pd du um rl ho [m1 m2 m3 m4 m5 m6 m7 m8 m9 m10]].
  cbn [k_pdeath k_uid k_gid] in *. subst pd.
  destruct x; try discriminate N; try (split; [reflexivity|exact I]);
    cbn [harmless] in N; apply andb_true_iff in N as [N E]; apply Z.eqb_eq in E; subst; destruct (I eq_refl) as [-> ->];
    (split; [reflexivity|]; intros _; split; reflexivity).
Qed.
Lemma run_steady single l : forall p q, forallb (fun x => harmless single (fst x)) l = true -> steady single p ->
  run l [] p = Some q -> steady single q.
Proof.
  induction l as [|[x i] l IH]; intros p q N S H; [injection H as <-; exact S|].
  cbn [forallb fst] in N. apply andb_true_iff in N as [N1 N2]. cbn [run hd tl] in H.
  destruct (sysdo x p) as [p'|] eqn:E.
  - eapply IH; [exact N2| |exact H]. eapply sysdo_steady; eassumption.
  - destruct i; [|discriminate]. eapply IH; eassumption.
Qed.
Lemma forallb_firstn {A} (f : A -> bool) l : forall n, forallb f l = true -> forallb f (firstn n l) = true.
Proof.
  induction l as [|x l IH]; intros [|n] H; cbn in *; try reflexivity. apply andb_true_iff in H as [-> H]. now apply IH.
Qed.
(* C118: whenever the parent dies, the container's process dies too: no executor gets started without it.  Proved for a single user
   id and for disabled namespaces. *)
Theorem parent_death_partial disabled single n p0 : disabled = true \/ single = true -> k_pdeath p0 = true ->
  (disabled = false -> k_uid p0 = Some 1 /\ k_gid p0 = Some 1) ->
  run_dying disabled n (childMain disabled single) p0 = None.
Proof.
  intros M D I. unfold run_dying. destruct (run (firstn n (childMain disabled single)) [] p0) as [q|] eqn:E; [|reflexivity].
  assert (S : steady (negb disabled) q).
  { eapply run_steady; [|split; [exact D|]|exact E].
    - apply forallb_firstn. destruct disabled, single; try reflexivity. destruct M; discriminate.
    - intro N. apply I. now destruct disabled. }
  destruct S as [-> _]. reflexivity.
Qed.
Print Assumptions parent_death_partial.
Example parent_death_case gs um rl : let p := child_init true gs um rl in
  k_pdeath p = true /\ k_uid p = Some 1 /\ k_gid p = Some 1.
Proof. repeat split. Qed.
(* C118: with several user ids it doesn't hold: a change of credentials cancels the death signal, and the first process of a
   namespace can't tell that its parent is gone. *)
Theorem parent_death_refuted :
  ~ (forall n p0, (n <= length (childMain false false))%nat -> k_pdeath p0 = true -> run_dying false n (childMain false false) p0 = None).
Proof.
  intro H. specialize (H 10%nat (child_init false [] 18 (fun _ => None))).
  assert (E : run_dying false 10 (childMain false false) (child_init false [] 18 (fun _ => None)) <> None) by (vm_compute; discriminate).
  apply E, H; [vm_compute; repeat constructor|reflexivity].
Qed.
Print Assumptions parent_death_refuted.
