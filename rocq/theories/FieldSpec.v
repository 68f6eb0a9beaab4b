(** What the four arrays sudo hands over mean, field by field, as the sudo
    plugin manual and the comments of sudo_plugin/src/options/*.rs describe
    them: the key, the type of the value, and what its absence means. *)
From Verif Require Import Base Options Spec.
Local Open Scope Z_scope.

(** An address and a netmask. *)
Definition NetAddr (pl : platform) (piece : bytes) (n : net_addr) : Prop :=
  exists a m, piece = a ++ "/"%byte :: m /\ ~ In "/"%byte a
    /\ pl_parse_ip pl a = Some (na_addr n) /\ pl_parse_ip pl m = Some (na_mask n).

(** The raw map holds exactly what the array provides. *)
Definition SameMap (r : raw) (m : optmap) : Prop :=
  forall k v, get_bytes m k = Some v <-> Provides r k v.

(** settings.rs:28-164 *)
Definition SettingsRead (pl : platform) (r : raw) (se : settings) : Prop :=
  Reads r "plugin_dir" Text (se_plugin_dir se)
  /\ Reads r "plugin_path" Text (se_plugin_path se)
  /\ Reads r "progname" Text (se_progname se)
  /\ ReadsOr r "network_addrs" (ListOf " "%byte (NetAddr pl)) [] (se_network_addrs se)
  /\ ReadsOpt r "bsd_auth_type" Text (se_bsd_auth_type se)
  /\ ReadsOpt r "closefrom" (UInt 64) (se_close_from se)
  /\ ReadsOpt r "debug_flags" Text (se_debug_flags se)
  /\ ReadsOpt r "debug_level" (UInt 64) (se_debug_level se)
  /\ ReadsOr r "ignore_ticket" Bool false (se_ignore_ticket se)
  /\ ReadsOr r "implied_shell" Bool false (se_implied_shell se)
  /\ ReadsOpt r "login_class" Text (se_login_class se)
  /\ ReadsOr r "login_shell" Bool false (se_login_shell se)
  /\ ReadsOpt r "max_groups" (UInt 64) (se_max_groups se)
  /\ ReadsOr r "noninteractive" Bool false (se_noninteractive se)
  /\ ReadsOr r "preserve_environment" Bool false (se_preserve_environment se)
  /\ ReadsOr r "preserve_groups" Bool false (se_preserve_groups se)
  /\ ReadsOpt r "prompt" Text (se_prompt se)
  /\ ReadsOpt r "remote_host" Text (se_remote_host se)
  /\ ReadsOr r "run_shell" Bool false (se_run_shell se)
  /\ ReadsOpt r "runas_group" Text (se_runas_group se)
  /\ ReadsOpt r "runas_user" Text (se_runas_user se)
  /\ ReadsOpt r "selinux_role" Text (se_selinux_role se)
  /\ ReadsOpt r "selinux_type" Text (se_selinux_type se)
  /\ ReadsOr r "set_home" Bool false (se_set_home se)
  /\ ReadsOr r "sudoedit" Bool false (se_sudoedit se)
  /\ ReadsOpt r "timeout" Text (se_timeout se)
  /\ SameMap r (se_raw se).

(** user_info.rs:25-95 *)
Definition UserInfoRead (r : raw) (ui : user_info) : Prop :=
  Reads r "cwd" Text (ui_cwd ui)
  /\ Reads r "egid" (UInt 32) (ui_egid ui)
  /\ Reads r "euid" (UInt 32) (ui_euid ui)
  /\ Reads r "gid" (UInt 32) (ui_gid ui)
  /\ Reads r "groups" (UIntList 32) (ui_groups ui)
  /\ Reads r "host" Text (ui_host ui)
  /\ Reads r "pgid" (SInt 32) (ui_pgid ui)
  /\ Reads r "pid" (SInt 32) (ui_pid ui)
  /\ Reads r "ppid" (SInt 32) (ui_ppid ui)
  /\ Reads r "uid" (UInt 32) (ui_uid ui)
  /\ Reads r "user" Text (ui_user ui)
  /\ ReadsOpt r "umask" Text (ui_umask ui)
  /\ ReadsOr r "cols" (UInt 64) 80 (ui_cols ui)
  /\ ReadsOr r "lines" (UInt 64) 24 (ui_lines ui)
  /\ ReadsOr r "sid" (SInt 32) 0 (ui_sid ui)
  /\ ReadsOr r "tcpgid" (SInt 32) (-1) (ui_tcpgid ui)
  /\ ReadsOpt r "tty" Text (ui_tty ui)
  /\ SameMap r (ui_raw ui).

(** command_info.rs:28-236 *)
Definition CommandInfoRead (pl : platform) (r : raw) (ci : command_info) : Prop :=
  ReadsOr r "runas_gid" (UInt 32) (pl_egid pl) (ci_runas_gid ci)
  /\ ReadsOr r "runas_uid" (UInt 32) (pl_euid pl) (ci_runas_uid ci)
  /\ ReadsOr r "command" Text [] (ci_command ci)
  /\ ReadsOr r "runas_egid" (UInt 32) (ci_runas_gid ci) (ci_runas_egid ci)
  /\ ReadsOr r "runas_euid" (UInt 32) (ci_runas_uid ci) (ci_runas_euid ci)
  /\ ReadsOr r "umask" (UInt 32) 4095 (ci_umask ci)
  /\ ReadsOpt r "chroot" Text (ci_chroot ci)
  /\ ReadsOpt r "closefrom" (UInt 64) (ci_close_from ci)
  /\ ReadsOpt r "cwd" Text (ci_cwd ci)
  /\ ReadsOr r "exec_background" Bool false (ci_exec_background ci)
  /\ ReadsOpt r "execfd" (UInt 64) (ci_exec_fd ci)
  /\ ReadsOr r "iolog_compress" Bool false (ci_iolog_compress ci)
  /\ ReadsOpt r "iolog_group" Text (ci_iolog_group ci)
  /\ ReadsOpt r "iolog_mode" Text (ci_iolog_mode ci)
  /\ ReadsOpt r "iolog_path" Text (ci_iolog_path ci)
  /\ ReadsOr r "iolog_stdin" Bool false (ci_iolog_stdin ci)
  /\ ReadsOr r "iolog_stdout" Bool false (ci_iolog_stdout ci)
  /\ ReadsOr r "iolog_stderr" Bool false (ci_iolog_stderr ci)
  /\ ReadsOr r "iolog_ttyin" Bool false (ci_iolog_ttyin ci)
  /\ ReadsOr r "iolog_ttyout" Bool false (ci_iolog_ttyout ci)
  /\ ReadsOpt r "iolog_user" Text (ci_iolog_user ci)
  /\ ReadsOpt r "login_class" Text (ci_login_class ci)
  /\ ReadsOpt r "nice" (UInt 64) (ci_nice ci)
  /\ ReadsOr r "noexec" Bool false (ci_noexec ci)
  /\ ReadsOr r "preserve_fds" (ListOf ","%byte (SInt 32)) [] (ci_preserve_fds ci)
  /\ ReadsOr r "preserve_groups" Bool false (ci_preserve_groups ci)
  /\ ReadsOpt r "runas_groups" (UIntList 32) (ci_runas_groups ci)
  /\ ReadsOpt r "selinux_role" Text (ci_selinux_role ci)
  /\ ReadsOpt r "selinux_type" Text (ci_selinux_type ci)
  /\ ReadsOr r "set_utmp" Bool false (ci_set_utmp ci)
  /\ ReadsOr r "sudoedit" Bool false (ci_sudoedit ci)
  /\ ReadsOr r "sudoedit_checkdir" Bool true (ci_sudoedit_checkdir ci)
  /\ ReadsOr r "sudoedit_follow" Bool false (ci_sudoedit_follow ci)
  /\ ReadsOpt r "timeout" (UInt 64) (ci_timeout ci)
  /\ ReadsOpt r "umask_override" Bool (ci_umask_override ci)
  /\ ReadsOr r "use_pty" Bool false (ci_use_pty ci)
  /\ ReadsOpt r "utmp_user" Text (ci_utmp_user ci)
  /\ SameMap r (ci_raw ci).
