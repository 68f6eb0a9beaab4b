(** Configurations of the plugin that demand more or less. *)
From Verif Require Import Base World Env Core Spec.
Local Open Scope Z_scope.

(** What else an exemption depends on is the same. *)
Record SameAsked (rq rq' : request) : Prop := {
  sa_uid : rq_uid rq' = rq_uid rq; sa_euid : rq_euid rq' = rq_euid rq; sa_gid : rq_gid rq' = rq_gid rq;
  sa_groups : rq_groups rq' = rq_groups rq;
  sa_command : rq_command rq' = rq_command rq;
  sa_to_uid : rq_to_uid rq' = rq_to_uid rq; sa_to_gid : rq_to_gid rq' = rq_to_gid rq;
  sa_to_groups : rq_to_groups rq' = rq_to_groups rq;
  sa_log : forall s, rq_log rq' s = rq_log rq s;
  sa_binary : rq_binary_path rq' = rq_binary_path rq
}.

(** [rq'] is the same under a configuration that enforces at least the same
    groups and exempts at most the same. *)
Record Stricter (rq rq' : request) : Prop := {
  sr_same : SameAsked rq rq';
  sr_enforced : forall g, In g (rq_enforced rq) -> In g (rq_enforced rq');
  sr_exempted : forall g, In g (rq_exempted rq') -> In g (rq_exempted rq)
}.

(** An element of a list that is not a group number. *)
Definition NotANumber (v : bytes) : Prop :=
  exists pieces p, Separated ","%byte v pieces /\ In p pieces /\ forall n, ~ UInt 32 p n.

(** The same arguments with other options in sudo.conf. *)
Definition with_entries (a : open_args) (l : list bytes) : open_args := {|
  oa_version := oa_version a; oa_printf := oa_printf a; oa_settings := oa_settings a;
  oa_user_info := oa_user_info a; oa_command_info := oa_command_info a; oa_argv := oa_argv a;
  oa_user_env := oa_user_env a; oa_plugin_options := Some l |}.

(** None of the entries is for [k]. *)
Definition NoneFor (k : bytes) (l : list bytes) : Prop := forall buf v, In buf l -> ~ EntryMeans buf k v.
