(* AccessProps.v: property C126: default access policies deny or limit. *)
From Verif Require Import Access BaseLemmas UploadProps.

(** ** Specification *)
(* The documented defaults *)
Definition documented : access_config :=
  AccessConfig (ResourcePolicy 64 4 268435456 67108864) (ProgramPolicy 33554432 16777216 65536) (InstancePolicy 33554432 65536 10000000).
(* A value is as configured, or the default if it has been left out *)
Definition filled (configured default got : Z) : Prop := configured = 0 /\ got = default \/ configured <> 0 /\ got = configured.
Definition filled_resource (c : access_config) (p : resource_policy) : Prop :=
  let a := c_resource c in let d := c_resource documented in
  filled (MaxModules a) (MaxModules d) (MaxModules p) /\ filled (MaxProcs a) (MaxProcs d) (MaxProcs p) /\
  filled (TotalStorageSize a) (TotalStorageSize d) (TotalStorageSize p) /\
  filled (TotalResidentSize a) (TotalResidentSize d) (TotalResidentSize p).
Definition filled_program (c : access_config) (p : program_policy) : Prop :=
  let a := c_program c in let d := c_program documented in
  filled (MaxModuleSize a) (MaxModuleSize d) (MaxModuleSize p) /\ filled (MaxTextSize a) (MaxTextSize d) (MaxTextSize p) /\
  filled (MaxStackSize a) (MaxStackSize d) (MaxStackSize p).
Definition filled_instance (c : access_config) (p : instance_policy) : Prop :=
  let a := c_instance c in let d := c_instance documented in
  filled (MaxMemorySize a) (MaxMemorySize d) (MaxMemorySize p) /\ filled (StackSize a) (StackSize d) (StackSize p) /\
  filled (TimeResolution a) (TimeResolution d) (TimeResolution p).
(* Which policies the server needs an answer for *)
Definition about_program (q : question) : bool := match q with QAccess | QInstance => false | _ => true end.
Definition about_instance (q : question) : bool := match q with QAccess | QProgram | QProgramSource => false | _ => true end.

Lemma or_default_filled x d : filled x d (or_default x d).
Proof. unfold filled, or_default. destruct (x =? 0) eqn:E; lia. Qed.

(** ** C126 *)

(* Public access: every policy that's asked for is given, and no limit is left out: unless configured otherwise, the defaults apply. *)
Theorem public_access_limits : forall c q, exists p, PublicAccess c q = Some p /\
  (q <> QAccess -> exists r, p_resource p = Some r /\ filled_resource c r) /\
  (about_program q = true -> exists r, p_program p = Some r /\ filled_program c r) /\
  (about_instance q = true -> exists r, p_instance p = Some r /\ filled_instance c r).
Proof.
  assert (R : forall c, filled_resource c (ConfigureResource c)) by (intros c; repeat split; apply or_default_filled).
  assert (P : forall c, filled_program c (ConfigureProgram c)) by (intros c; repeat split; apply or_default_filled).
  assert (I : forall c, filled_instance c (ConfigureInstance c)) by (intros c; repeat split; apply or_default_filled).
  intros c q. destruct q; eexists; (split; [reflexivity|]); cbn [p_resource p_program p_instance about_program about_instance];
    (split; [|split]); intros H; try discriminate H; try congruence; eauto.
Qed.
Definition unset : access_config := AccessConfig (ResourcePolicy 0 0 0 0) (ProgramPolicy 0 0 0) (InstancePolicy 0 0 0).
Example defaults : ConfigureResource unset = c_resource documented /\ ConfigureProgram unset = c_program documented /\
  ConfigureInstance unset = c_instance documented.
Proof. auto. Qed.
(* Negative values aren't defaults either: they are passed on, and nothing can be uploaded. *)
Example negative_limit : forall h b encodings,
  snd (serve_authorized (fun _ => None) (fun _ => 0) (fun _ => true) (fun _ => 0)
    (PublicAccess (AccessConfig (c_resource unset) (ProgramPolicy (-1) 0 0) (c_instance unset))) [] (Put h encodings 8 b)) =
  Some (Failed TooLong) \/
  snd (serve_authorized (fun _ => None) (fun _ => 0) (fun _ => true) (fun _ => 0)
    (PublicAccess (AccessConfig (c_resource unset) (ProgramPolicy (-1) 0 0) (c_instance unset))) [] (Put h encodings 8 b)) =
  Some (Failed BadEncoding).
Proof.
  intros h b encs. cbn [serve_authorized PublicAccess question_of serve]. destruct (8 <? 0) eqn:E; [discriminate|].
  destruct (decode_content _ encs 8 b); [left|right]; reflexivity.
Qed.

(* Without an access policy, every question is answered by refusing, and nothing happens. *)
Theorem no_access : forall gunzip hash compiles text_size l,
  (forall q, NoAccess q = None) /\
  serve_history gunzip hash compiles text_size NoAccess l = [] /\
  forall ps q, serve_authorized gunzip hash compiles text_size NoAccess ps q = (ps, None).
Proof.
  intros g h c t l. split; [reflexivity|]. split; [|reflexivity]. unfold serve_history. induction l as [|q l IH]; [reflexivity|]. exact IH.
Qed.

(* The configured module size applies to whatever is uploaded under public access. *)
Theorem public_access_module_size : forall gunzip hash compiles text_size c l h b n,
  let limit := if MaxModuleSize (c_program c) =? 0 then 33554432 else MaxModuleSize (c_program c) in
  0 <= limit ->
  module_content (serve_history gunzip hash compiles text_size (PublicAccess c) l) h = Some (b, n) -> len b <= limit /\ n <= limit.
Proof.
  intros g hs cm t c l h b n limit L H.
  assert (E : exists l', serve_history g hs cm t (PublicAccess c) l = serve_all g hs cm t l' /\
     Forall (fun x => max_module (fst x) <= limit) l').
  { clear H. exists (map (fun q => (used_policy (ConfigureProgram c), q)) l). split.
    - unfold serve_history, serve_all. generalize (@nil (Z * program)).
      induction l as [|q l IH]; intros ps; [reflexivity|]. cbn [map fold_left fst snd]. rewrite IH. f_equal.
      unfold serve_authorized. destruct q; cbn [question_of PublicAccess];
        (destruct (serve _ _ _ _ _ _ _) as [[ps' r] k]; reflexivity).
    - apply Forall_forall. intros x Hx. apply in_map_iff in Hx. destruct Hx as (q & <- & _). cbn [fst used_policy max_module].
      unfold ConfigureProgram, or_default, limit. cbn [MaxModuleSize]. destruct (_ =? 0); [unfold DefaultMaxModuleSize|]; lia. }
  destruct E as (l' & E & F). rewrite E in H. exact (module_size_limit _ _ _ _ l' limit h b n L F H).
Qed.
Example public_upload : module_content
  (serve_history gunzip0 hash0 compiles0 text0 (PublicAccess unset) [Put (hash0 wasm0) [] 8 (Stream wasm0 true)]) (hash0 wasm0) = Some (wasm0, 8).
Proof. vm_compute. reflexivity. Qed.
(* The resource policy isn't enforced ("TODO: check resource policy"): two modules with a limit of one. *)
Theorem resource_policy_refuted : exists c l, MaxModules (ConfigureResource c) = 1 /\ Forall honest l /\
  length (serve_history gunzip0 hash0 compiles0 text0 (PublicAccess c) l) = 2%nat.
Proof.
  exists (AccessConfig (ResourcePolicy 1 0 0 0) (c_program unset) (c_instance unset)),
    [Put (hash0 wasm0) [] 8 (Stream wasm0 true); Put (hash0 (wasm0 ++ [7])) [] 9 (Stream (wasm0 ++ [7]) true)].
  split; [reflexivity|]. split; [|vm_compute; reflexivity].
  repeat constructor; cbn; auto.
Qed.
Print Assumptions public_access_limits.
Print Assumptions no_access.
Print Assumptions public_access_module_size.
Print Assumptions resource_policy_refuted.
