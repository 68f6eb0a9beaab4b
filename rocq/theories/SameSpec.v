(** Arguments that differ only in what the session does not depend on. *)
From Verif Require Import Base Options World Env Core Spec.
Local Open Scope Z_scope.

(** The entries of the four arrays that make a difference. *)
Definition settings_keys : list string :=
  ["plugin_dir"; "plugin_path"; "progname"; "sudoedit"; "runas_user"; "runas_group"; "prompt"; "login_shell";
   "run_shell"; "set_home"; "preserve_environment"; "preserve_groups"; "ignore_ticket"; "noninteractive";
   "login_class"; "selinux_role"; "selinux_type"; "bsd_auth_type"; "closefrom"; "network_addrs"]%string.
Definition user_info_keys : list string :=
  ["cwd"; "egid"; "euid"; "gid"; "groups"; "host"; "pgid"; "pid"; "ppid"; "uid"; "user"; "lines"; "cols"; "tty"]%string.
Definition command_info_keys : list string :=
  ["command"; "cwd"; "runas_uid"; "runas_euid"; "runas_gid"; "runas_egid"; "runas_groups"; "preserve_groups";
   "iolog_ttyout"; "iolog_stdin"; "iolog_stdout"; "iolog_stderr"]%string.
Definition plugin_options_keys : list string :=
  ["binary_path"; "user_prompt_path"; "pair_prompt_path"; "socket_dir"; "gids_enforced"; "gids_exempted"]%string.

(** [r'] is [r] with further entries put in anywhere, for none of these keys. *)
Inductive Padded (keys : list string) : raw -> raw -> Prop :=
| PD_same r : Padded keys r r
| PD_more x buf y r' : (forall k v, EntryMeans buf k v -> ~ In k (map B keys)) ->
    Padded keys (Some (x ++ buf :: y)) r' -> Padded keys (Some (x ++ y)) r'.

(** The user's environment is not restricted at all. *)
Record PaddedArgs (a a' : open_args) : Prop := {
  pa_version : oa_version a' = oa_version a;
  pa_printf : oa_printf a' = oa_printf a;
  pa_argv : oa_argv a' = oa_argv a;
  pa_settings : Padded settings_keys (oa_settings a) (oa_settings a');
  pa_user_info : Padded user_info_keys (oa_user_info a) (oa_user_info a');
  pa_command_info : Padded command_info_keys (oa_command_info a) (oa_command_info a');
  pa_plugin_options : Padded plugin_options_keys (oa_plugin_options a) (oa_plugin_options a')
}.

(** The request with other marks on the streams. *)
Definition with_log (rq : request) (l : stream -> bool) : request := {|
  rq_uid := rq_uid rq; rq_euid := rq_euid rq; rq_gid := rq_gid rq; rq_groups := rq_groups rq; rq_pid := rq_pid rq;
  rq_user := rq_user rq; rq_host := rq_host rq; rq_user_cwd := rq_user_cwd rq;
  rq_lines := rq_lines rq; rq_cols := rq_cols rq; rq_tty := rq_tty rq;
  rq_command := rq_command rq; rq_policy_cwd := rq_policy_cwd rq;
  rq_to_uid := rq_to_uid rq; rq_to_gid := rq_to_gid rq; rq_to_groups := rq_to_groups rq;
  rq_preserve_groups := rq_preserve_groups rq; rq_log := l;
  rq_progname := rq_progname rq; rq_args := rq_args rq;
  rq_f_sudoedit := rq_f_sudoedit rq; rq_f_user := rq_f_user rq; rq_f_group := rq_f_group rq;
  rq_f_prompt := rq_f_prompt rq; rq_f_login := rq_f_login rq; rq_f_shell := rq_f_shell rq;
  rq_f_set_home := rq_f_set_home rq; rq_f_preserve_env := rq_f_preserve_env rq;
  rq_f_preserve_groups := rq_f_preserve_groups rq; rq_f_reset := rq_f_reset rq;
  rq_f_noninteractive := rq_f_noninteractive rq; rq_f_class := rq_f_class rq;
  rq_f_role := rq_f_role rq; rq_f_type := rq_f_type rq; rq_f_auth := rq_f_auth rq;
  rq_f_close_from := rq_f_close_from rq;
  rq_binary_path := rq_binary_path rq; rq_user_prompt_path := rq_user_prompt_path rq;
  rq_pair_prompt_path := rq_pair_prompt_path rq; rq_socket_dir := rq_socket_dir rq;
  rq_enforced := rq_enforced rq; rq_exempted := rq_exempted rq; rq_printf := rq_printf rq |}.

(** The same request, whether typed input is marked for logging or not. *)
Definition Alike (rq rq' : request) : Prop :=
  exists l, rq' = with_log rq l /\ forall s, s <> Ttyin -> l s = rq_log rq s.

(** The same callbacks, up to such arguments. *)
Inductive PaddedCall : callback -> callback -> Prop :=
| PC_open a a' : PaddedArgs a a' -> PaddedCall (CbOpen a) (CbOpen a')
| PC_same cb : PaddedCall cb cb.

(** The same answers to sudo and, in the same state of the system, the same
    system calls; [w] contains the record of the calls made so far. *)
Definition Indistinguishable {A C} (x : outcome (list Z * A) * world) (y : outcome (list Z * C) * world) : Prop :=
  snd x = snd y
  /\ match fst x, fst y with
     | Done p, Done q => fst p = fst q
     | Panicked, Panicked => True
     | Stopped, Stopped => True
     | _, _ => False
     end.
