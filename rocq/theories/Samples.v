(** Concrete arguments and environments used by the examples that accompany
    the theorems. *)
From Verif Require Import Base Options World Sys Io Env Core Pair Spec RequestProofs.
Local Open Scope Z_scope.

(** A release / debug build running as root; a toy address parser. *)
Definition toy_ip (s : bytes) : option (list Z) :=
  if bytes_eqb s (B "10.0.0.1") then Some [10; 0; 0; 1]
  else if bytes_eqb s (B "255.0.0.0") then Some [255; 0; 0; 0] else None.
Definition release : platform := mkPlatform false 0 0 toy_ip.
Definition debug : platform := mkPlatform true 0 0 toy_ip.

(** sudo 1.9 speaks API 1.17 *)
Definition api_1_17 : Z := 65553.

Definition settings0 : list bytes :=
  [B "plugin_dir=/usr/libexec/sudo/"; B "plugin_path=/usr/libexec/sudo/sudo_pair.so"; B "progname=sudo"].
Definition user_info0 : list bytes :=
  [B "user=alice"; B "pid=4242"; B "ppid=4000"; B "pgid=4242"; B "tcpgid=4242"; B "sid=4000";
   B "uid=1000"; B "euid=0"; B "gid=1000"; B "egid=1000"; B "groups=1000,27"; B "cwd=/home/alice";
   B "tty=/dev/pts/3"; B "host=web1"; B "lines=50"; B "cols=132"].
Definition log_hints : list bytes :=
  [B "iolog_stdin=true"; B "iolog_stdout=true"; B "iolog_stderr=true"; B "iolog_ttyout=true"].

(** alice: sudo -u root cat /etc/shadow *)
Definition to_root : open_args := {|
  oa_version := api_1_17; oa_printf := true;
  oa_settings := Some (settings0 ++ [B "runas_user=root"]);
  oa_user_info := Some user_info0;
  oa_command_info := Some ([B "command=/bin/cat"; B "runas_uid=0"; B "runas_gid=0"; B "runas_groups=0"] ++ log_hints);
  oa_argv := [B "cat"; B "/etc/shadow"];
  oa_user_env := Some [];
  oa_plugin_options := None |}.

Definition to_root_rq : request := {|
  rq_uid := 1000; rq_euid := 0; rq_gid := 1000; rq_groups := [1000; 27]; rq_pid := 4242;
  rq_user := B "alice"; rq_host := B "web1"; rq_user_cwd := B "/home/alice";
  rq_lines := 50; rq_cols := 132; rq_tty := Some (B "/dev/pts/3");
  rq_command := B "/bin/cat"; rq_policy_cwd := None;
  rq_to_uid := 0; rq_to_gid := 0; rq_to_groups := Some [0]; rq_preserve_groups := false;
  rq_log := fun s => match s with Ttyin => false | Ttyout => true | Stdin => true | Stdout => true | Stderr => true end;
  rq_progname := B "sudo"; rq_args := [B "cat"; B "/etc/shadow"];
  rq_f_sudoedit := false; rq_f_user := Some (B "root"); rq_f_group := None; rq_f_prompt := None;
  rq_f_login := false; rq_f_shell := false; rq_f_set_home := false; rq_f_preserve_env := false;
  rq_f_preserve_groups := false; rq_f_reset := false; rq_f_noninteractive := false;
  rq_f_class := None; rq_f_role := None; rq_f_type := None; rq_f_auth := None; rq_f_close_from := None;
  rq_binary_path := B "/usr/bin/sudo_approve"; rq_user_prompt_path := B "/etc/sudo_pair.prompt.user";
  rq_pair_prompt_path := B "/etc/sudo_pair.prompt.pair"; rq_socket_dir := B "/var/run/sudo_pair";
  rq_enforced := [0]; rq_exempted := []; rq_printf := true |}.

Lemma to_root_describes : Describes release to_root to_root_rq.
Proof.
  destruct (io_env_new release (B "n") (B "v") to_root) as [[e|]|] eqn:E;
    [|vm_compute in E; discriminate|vm_compute in E; discriminate].
  assert (H : request_of e = to_root_rq).
  { vm_compute in E. injection E as <-. vm_compute. reflexivity. }
  rewrite <- H. exact (env_Describes _ _ _ _ _ E).
Qed.

(** alice: sudo -g wheel id, where the enforced groups are 0 and 10 *)
Definition to_group (extra_ui : list bytes) : open_args := {|
  oa_version := api_1_17; oa_printf := true;
  oa_settings := Some (settings0 ++ [B "runas_group=wheel"]);
  oa_user_info := Some (user_info0 ++ extra_ui);
  oa_command_info := Some ([B "command=/usr/bin/id"; B "runas_uid=1000"; B "runas_gid=10";
                            B "runas_groups=1000,27,10"] ++ log_hints);
  oa_argv := [B "id"];
  oa_user_env := Some [];
  oa_plugin_options := Some [B "gids_enforced=0,10"] |}.

Definition to_group_rq (groups : list Z) : request := {|
  rq_uid := 1000; rq_euid := 0; rq_gid := 1000; rq_groups := groups; rq_pid := 4242;
  rq_user := B "alice"; rq_host := B "web1"; rq_user_cwd := B "/home/alice";
  rq_lines := 50; rq_cols := 132; rq_tty := Some (B "/dev/pts/3");
  rq_command := B "/usr/bin/id"; rq_policy_cwd := None;
  rq_to_uid := 1000; rq_to_gid := 10; rq_to_groups := Some [1000; 27; 10]; rq_preserve_groups := false;
  rq_log := fun s => match s with Ttyin => false | Ttyout => true | Stdin => true | Stdout => true | Stderr => true end;
  rq_progname := B "sudo"; rq_args := [B "id"];
  rq_f_sudoedit := false; rq_f_user := None; rq_f_group := Some (B "wheel"); rq_f_prompt := None;
  rq_f_login := false; rq_f_shell := false; rq_f_set_home := false; rq_f_preserve_env := false;
  rq_f_preserve_groups := false; rq_f_reset := false; rq_f_noninteractive := false;
  rq_f_class := None; rq_f_role := None; rq_f_type := None; rq_f_auth := None; rq_f_close_from := None;
  rq_binary_path := B "/usr/bin/sudo_approve"; rq_user_prompt_path := B "/etc/sudo_pair.prompt.user";
  rq_pair_prompt_path := B "/etc/sudo_pair.prompt.pair"; rq_socket_dir := B "/var/run/sudo_pair";
  rq_enforced := [0; 10]; rq_exempted := []; rq_printf := true |}.

Lemma to_group_describes : Describes release (to_group []) (to_group_rq [1000; 27]).
Proof.
  destruct (io_env_new release (B "n") (B "v") (to_group [])) as [[e|]|] eqn:E;
    [|vm_compute in E; discriminate|vm_compute in E; discriminate].
  assert (H : request_of e = to_group_rq [1000; 27]).
  { vm_compute in E. injection E as <-. vm_compute. reflexivity. }
  rewrite <- H. exact (env_Describes _ _ _ _ _ E).
Qed.

(** The same by a requester who already belongs to group 10. *)
Lemma to_own_group_describes :
  Describes release (to_group [B "groups=1000,27,10"]) (to_group_rq [1000; 27; 10]).
Proof.
  destruct (io_env_new release (B "n") (B "v") (to_group [B "groups=1000,27,10"])) as [[e|]|] eqn:E;
    [|vm_compute in E; discriminate|vm_compute in E; discriminate].
  assert (H : request_of e = to_group_rq [1000; 27; 10]).
  { vm_compute in E. injection E as <-. vm_compute. reflexivity. }
  rewrite <- H. exact (env_Describes _ _ _ _ _ E).
Qed.
