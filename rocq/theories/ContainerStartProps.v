(* ContainerStartProps.v: C120. *)
From Verif Require Export ContainerStart.
From Coq Require Import Lia.

Definition alive (l : list wstep) : Prop := ~ In ParentKilled l.
Definition winv (g : settings) (w : world) : Prop :=
  w_signal w = false /\
  match w_parent w with
  | Configuring todo => rev (w_done w) ++ todo = confs g /\ w_pipe w = true /\ w_child w = Waiting
  | Killing => w_child w = Waiting /\ w_pipe w = true \/ rev (w_done w) = confs g
  | Reaping | Failed => w_child w = Dead
  | Started => rev (w_done w) = confs g /\ w_pipe w = false /\ w_child w <> Dead
  | Gone => False
  end /\
  (w_child w = Running -> rev (w_done w) = confs g).
Lemma wdo_inv g w x : x <> ParentKilled -> winv g w -> winv g (wdo w x).
Proof.
  destruct w as [p d pipe c s]. unfold winv. cbn [w_parent w_done w_pipe w_child w_signal]. intros N (S & I & R). subst s.
  destruct x as [ok| | |]; cbn [wdo]; [|destruct c; try (now auto); destruct pipe; auto|congruence|auto].
  - destruct p as [[|a todo]| | | | |]; try (now auto).
    + destruct I as (I1 & -> & ->). rewrite app_nil_r in I1. destruct ok; cbn [w_parent w_done w_pipe w_child w_signal].
      * split; [reflexivity|]. split; [|discriminate]. split; [exact I1|]. split; [reflexivity|discriminate].
      * split; [reflexivity|]. split; [right; exact I1|discriminate].
    + destruct I as (I1 & -> & ->). destruct ok; cbn [w_parent w_done w_pipe w_child w_signal rev].
      * split; [reflexivity|]. split; [|discriminate]. split; [|now split]. now rewrite <- app_assoc.
      * split; [reflexivity|]. split; [left; now split|discriminate].
  - cbn [w_parent w_done w_pipe w_child w_signal]. destruct p as [todo| | | | |]; try discriminate I; try contradiction.
    + destruct I as (_ & I & _). discriminate.
    + destruct I as [[_ I]|I]; [discriminate|]. split; [reflexivity|]. split; [right; exact I|]. intros _; exact I.
    + destruct I as (I & _ & _). split; [reflexivity|]. split; [split; [exact I|split; [reflexivity|discriminate]]|]. intros _; exact I.
Qed.
Lemma wrun_inv g l : forall w, alive l -> winv g w -> winv g (wrun w l).
Proof.
  induction l as [|x l IH]; intros w A I; [exact I|]. cbn [wrun fold_left]. apply IH.
  - intro J. apply A. now right.
  - apply wdo_inv; [|exact I]. intros ->. apply A. now left.
Qed.
Lemma winit_inv g : winv g (world_init g).
Proof. unfold winv. cbn. split; [reflexivity|]. split; [|discriminate]. repeat split. Qed.

(* C120: the container doesn't do anything before its cgroup, its priority for the out-of-memory killer and the id maps of its
   namespace have been configured; and when Start returns an error, its process is dead.  However the steps interleave, and
   whichever of them fail; provided that the parent isn't killed. *)
Theorem container_configured_partial g l : alive l ->
  let w := wrun (world_init g) l in
  (w_child w = Running -> (g_cgroup g = true -> In ExecutorCgroup (w_done w)) /\ In OomScore (w_done w) /\
     (g_disabled g = false -> g_single g = false -> g_newidmap g = true -> In IdMaps (w_done w))) /\
  (w_parent w = Failed -> w_child w = Dead) /\
  (w_parent w = Started -> w_child w <> Dead /\ w_child (wdo w Child) = Running).
Proof.
  intros A w. pose proof (wrun_inv g l _ A (winit_inv g)) as (S & I & R). fold w in S, I, R. split; [|split].
  - intro C. apply R in C. assert (Q : forall a, In a (confs g) -> In a (w_done w)) by (intros a X; rewrite <- C in X; now apply in_rev).
    unfold confs in Q. split; [|split].
    + intro G. apply Q. rewrite G. now left.
    + apply Q. apply in_app_iff. right. now left.
    + intros G1 G2 G3. apply Q. rewrite G1, G2, G3. apply in_app_iff. right. right. now left.
  - intro P. rewrite P in I. exact I.
  - intro P. rewrite P in I. destruct I as (_ & I & N). split; [exact N|]. clear - I N. destruct w as [p d pipe c s]. cbn in *. subst pipe.
    destruct c; [reflexivity|reflexivity|congruence].
Qed.
Print Assumptions container_configured_partial.
Definition t_settings := Settings true false false true.
Example container_configured_case :
  w_child (wrun (world_init t_settings) [Child; Parent true; Parent true; Child; Parent true; Parent true; Child]) = Running /\
  w_parent (wrun (world_init t_settings) [Parent true; Parent true; Child; Parent false; Parent true; Parent true; Child]) = Failed /\
  (* the pipe couldn't be closed properly *)
  w_child (wrun (world_init t_settings) [Parent true; Parent true; Parent true; Parent false; Child; Parent true]) = Dead.
Proof. repeat split. Qed.

(* C120: if the parent is killed, the pipe is closed too: the container may go on, in the wrong place. *)
Theorem container_configured_refuted :
  ~ (forall g l, let w := wrun (world_init g) l in w_child w = Running -> g_cgroup g = true -> In ExecutorCgroup (w_done w)).
Proof. intro H. exact (H t_settings [ParentKilled; Child] eq_refl eq_refl). Qed.
Print Assumptions container_configured_refuted.
(* C120: it is only a matter of time, unless something cancels the signal in between (see C118). *)
Theorem container_killed_with_parent g l : In ParentKilled l -> w_child (wdo (wrun (world_init g) l) Signal) = Dead.
Proof.
  assert (K : forall l w, w_signal w = true -> w_parent w = Gone -> w_signal (wrun w l) = true /\ w_parent (wrun w l) = Gone).
  { clear. induction l as [|x l IH]; intros w S P; [now split|]. cbn [wrun fold_left]. destruct w as [p d pipe c s]. cbn in S, P. subst.
    apply IH; destruct x, c, pipe; reflexivity. }
  assert (G : forall l w, (w_signal w = true <-> w_parent w = Gone) -> In ParentKilled l -> w_signal (wrun w l) = true).
  { clear -K. induction l as [|x l IH]; intros w I J; [destruct J|].
    cbn [wrun fold_left]. destruct w as [p d pipe c s]. cbn [w_signal w_parent] in I.
    destruct x as [ok| | |].
    - destruct J as [J|J]; [discriminate|]. apply IH; [|exact J].
      destruct p as [[|a todo]| | | | |]; cbn [wdo]; try destruct ok; cbn [w_signal w_parent]; first [exact I | (split; [intro Q; apply I in Q|]; congruence)].
    - destruct J as [J|J]; [discriminate|]. apply IH; [|exact J]. destruct c, pipe; cbn [wdo w_signal w_parent]; exact I.
    - clear J. apply (K l); destruct p; cbn [wdo w_signal w_parent]; try reflexivity. now apply I.
    - destruct J as [J|J]; [discriminate|]. apply IH; [|exact J]. destruct s; cbn [wdo w_signal w_parent]; exact I. }
  intro J. pose proof (G l (world_init g)) as H. destruct (wrun (world_init g) l) as [p d pipe c s]. cbn in H.
  rewrite H; [reflexivity| |exact J]. split; discriminate.
Qed.
Print Assumptions container_killed_with_parent.
