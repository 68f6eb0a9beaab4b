(** The layout tests of sudo_plugin-sys/src/bindings/*.rs, replayed in the
    model: the asserted size and alignment of each structure, and the asserted
    offset of each of its fields. *)
From Verif Require Import Base Layout.

Definition tested (a : arch) (s : structure) (size alignment : nat) (offsets : list (string * nat)) : bool :=
  (sizeof a s =? size)%nat && (align_of a s =? alignment)%nat
  && (List.length s =? List.length offsets)%nat
  && forallb (fun f => match place a 0 s (fst f) with Some (o, _) => (o =? snd f)%nat | None => false end) offsets.

(** ** sudo_plugin.x86-64.rs *)

(** lines 47-98 *)
Example layout_sudo_conv_message_X86_64 : tested X86_64 b_sudo_conv_message 16 8 [
     ("msg_type", 0); ("timeout", 4); ("msg", 8)]%string = true.
Proof. reflexivity. Qed.

(** lines 104-129 *)
Example layout_sudo_conv_reply_X86_64 : tested X86_64 b_sudo_conv_reply 8 8 [
     ("reply", 0)]%string = true.
Proof. reflexivity. Qed.

(** lines 144-208 *)
Example layout_sudo_conv_callback_X86_64 : tested X86_64 b_sudo_conv_callback 32 8 [
     ("version", 0); ("closure", 8); ("on_suspend", 16); ("on_resume", 24)]%string = true.
Proof. reflexivity. Qed.

(** lines 261-322 *)
Example layout_sudo_hook_X86_64 : tested X86_64 b_sudo_hook 24 8 [
     ("hook_version", 0); ("hook_type", 4); ("hook_fn", 8); ("closure", 16)]%string = true.
Proof. reflexivity. Qed.

(** lines 383-499 *)
Example layout_sudo_plugin_event_X86_64 : tested X86_64 b_sudo_plugin_event 64 8 [
     ("set", 0); ("add", 8); ("del", 16); ("pending", 24); ("fd", 32); ("setbase", 40);
     ("loopbreak", 48); ("free", 56)]%string = true.
Proof. reflexivity. Qed.

(** lines 591-768 *)
Example layout_policy_plugin_X86_64 : tested X86_64 b_policy_plugin 96 8 [
     ("type_", 0); ("version", 4); ("open", 8); ("close", 16); ("show_version", 24);
     ("check_policy", 32); ("list", 40); ("validate", 48); ("invalidate", 56);
     ("init_session", 64); ("register_hooks", 72); ("deregister_hooks", 80); ("event_alloc", 88)]%string = true.
Proof. reflexivity. Qed.

(** lines 871-1072 *)
Example layout_io_plugin_X86_64 : tested X86_64 b_io_plugin 112 8 [
     ("type_", 0); ("version", 4); ("open", 8); ("close", 16); ("show_version", 24);
     ("log_ttyin", 32); ("log_ttyout", 40); ("log_stdin", 48); ("log_stdout", 56);
     ("log_stderr", 64); ("register_hooks", 72); ("deregister_hooks", 80);
     ("change_winsize", 88); ("log_suspend", 96); ("event_alloc", 104)]%string = true.
Proof. reflexivity. Qed.

(** lines 1154-1303 *)
Example layout_audit_plugin_X86_64 : tested X86_64 b_audit_plugin 80 8 [
     ("type_", 0); ("version", 4); ("open", 8); ("close", 16); ("accept", 24); ("reject", 32);
     ("error", 40); ("show_version", 48); ("register_hooks", 56); ("deregister_hooks", 64);
     ("event_alloc", 72)]%string = true.
Proof. reflexivity. Qed.

(** lines 1338-1428 *)
Example layout_approval_plugin_X86_64 : tested X86_64 b_approval_plugin 40 8 [
     ("type_", 0); ("version", 4); ("open", 8); ("close", 16); ("check", 24); ("show_version", 32)]%string = true.
Proof. reflexivity. Qed.

(** lines 1449-1513 *)
Example layout_sudoers_group_plugin_X86_64 : tested X86_64 b_sudoers_group_plugin 32 8 [
     ("version", 0); ("init", 8); ("cleanup", 16); ("query", 24)]%string = true.
Proof. reflexivity. Qed.

(** ** sudo_plugin.x86.rs *)

(** lines 47-98 *)
Example layout_sudo_conv_message_X86 : tested X86 b_sudo_conv_message 12 4 [
     ("msg_type", 0); ("timeout", 4); ("msg", 8)]%string = true.
Proof. reflexivity. Qed.

(** lines 104-129 *)
Example layout_sudo_conv_reply_X86 : tested X86 b_sudo_conv_reply 4 4 [
     ("reply", 0)]%string = true.
Proof. reflexivity. Qed.

(** lines 144-208 *)
Example layout_sudo_conv_callback_X86 : tested X86 b_sudo_conv_callback 16 4 [
     ("version", 0); ("closure", 4); ("on_suspend", 8); ("on_resume", 12)]%string = true.
Proof. reflexivity. Qed.

(** lines 261-322 *)
Example layout_sudo_hook_X86 : tested X86 b_sudo_hook 16 4 [
     ("hook_version", 0); ("hook_type", 4); ("hook_fn", 8); ("closure", 12)]%string = true.
Proof. reflexivity. Qed.

(** lines 383-499 *)
Example layout_sudo_plugin_event_X86 : tested X86 b_sudo_plugin_event 32 4 [
     ("set", 0); ("add", 4); ("del", 8); ("pending", 12); ("fd", 16); ("setbase", 20);
     ("loopbreak", 24); ("free", 28)]%string = true.
Proof. reflexivity. Qed.

(** lines 591-768 *)
Example layout_policy_plugin_X86 : tested X86 b_policy_plugin 52 4 [
     ("type_", 0); ("version", 4); ("open", 8); ("close", 12); ("show_version", 16);
     ("check_policy", 20); ("list", 24); ("validate", 28); ("invalidate", 32);
     ("init_session", 36); ("register_hooks", 40); ("deregister_hooks", 44); ("event_alloc", 48)]%string = true.
Proof. reflexivity. Qed.

(** lines 871-1072 *)
Example layout_io_plugin_X86 : tested X86 b_io_plugin 60 4 [
     ("type_", 0); ("version", 4); ("open", 8); ("close", 12); ("show_version", 16);
     ("log_ttyin", 20); ("log_ttyout", 24); ("log_stdin", 28); ("log_stdout", 32);
     ("log_stderr", 36); ("register_hooks", 40); ("deregister_hooks", 44);
     ("change_winsize", 48); ("log_suspend", 52); ("event_alloc", 56)]%string = true.
Proof. reflexivity. Qed.

(** lines 1154-1303 *)
Example layout_audit_plugin_X86 : tested X86 b_audit_plugin 44 4 [
     ("type_", 0); ("version", 4); ("open", 8); ("close", 12); ("accept", 16); ("reject", 20);
     ("error", 24); ("show_version", 28); ("register_hooks", 32); ("deregister_hooks", 36);
     ("event_alloc", 40)]%string = true.
Proof. reflexivity. Qed.

(** lines 1338-1428 *)
Example layout_approval_plugin_X86 : tested X86 b_approval_plugin 24 4 [
     ("type_", 0); ("version", 4); ("open", 8); ("close", 12); ("check", 16); ("show_version", 20)]%string = true.
Proof. reflexivity. Qed.

(** lines 1449-1513 *)
Example layout_sudoers_group_plugin_X86 : tested X86 b_sudoers_group_plugin 16 4 [
     ("version", 0); ("init", 4); ("cleanup", 8); ("query", 12)]%string = true.
Proof. reflexivity. Qed.

(** ** sudo_plugin.aarch64.rs *)

(** lines 47-94 *)
Example layout_sudo_conv_message_Aarch64 : tested Aarch64 b_sudo_conv_message 16 8 [
     ("msg_type", 0); ("timeout", 4); ("msg", 8)]%string = true.
Proof. reflexivity. Qed.

(** lines 100-125 *)
Example layout_sudo_conv_reply_Aarch64 : tested Aarch64 b_sudo_conv_reply 8 8 [
     ("reply", 0)]%string = true.
Proof. reflexivity. Qed.

(** lines 140-199 *)
Example layout_sudo_conv_callback_Aarch64 : tested Aarch64 b_sudo_conv_callback 32 8 [
     ("version", 0); ("closure", 8); ("on_suspend", 16); ("on_resume", 24)]%string = true.
Proof. reflexivity. Qed.

(** lines 252-311 *)
Example layout_sudo_hook_Aarch64 : tested Aarch64 b_sudo_hook 24 8 [
     ("hook_version", 0); ("hook_type", 4); ("hook_fn", 8); ("closure", 16)]%string = true.
Proof. reflexivity. Qed.

(** lines 372-469 *)
Example layout_sudo_plugin_event_Aarch64 : tested Aarch64 b_sudo_plugin_event 64 8 [
     ("set", 0); ("add", 8); ("del", 16); ("pending", 24); ("fd", 32); ("setbase", 40);
     ("loopbreak", 48); ("free", 56)]%string = true.
Proof. reflexivity. Qed.

(** lines 561-723 *)
Example layout_policy_plugin_Aarch64 : tested Aarch64 b_policy_plugin 96 8 [
     ("type_", 0); ("version", 4); ("open", 8); ("close", 16); ("show_version", 24);
     ("check_policy", 32); ("list", 40); ("validate", 48); ("invalidate", 56);
     ("init_session", 64); ("register_hooks", 72); ("deregister_hooks", 80); ("event_alloc", 88)]%string = true.
Proof. reflexivity. Qed.

(** lines 826-1014 *)
Example layout_io_plugin_Aarch64 : tested Aarch64 b_io_plugin 112 8 [
     ("type_", 0); ("version", 4); ("open", 8); ("close", 16); ("show_version", 24);
     ("log_ttyin", 32); ("log_ttyout", 40); ("log_stdin", 48); ("log_stdout", 56);
     ("log_stderr", 64); ("register_hooks", 72); ("deregister_hooks", 80);
     ("change_winsize", 88); ("log_suspend", 96); ("event_alloc", 104)]%string = true.
Proof. reflexivity. Qed.

(** lines 1096-1230 *)
Example layout_audit_plugin_Aarch64 : tested Aarch64 b_audit_plugin 80 8 [
     ("type_", 0); ("version", 4); ("open", 8); ("close", 16); ("accept", 24); ("reject", 32);
     ("error", 40); ("show_version", 48); ("register_hooks", 56); ("deregister_hooks", 64);
     ("event_alloc", 72)]%string = true.
Proof. reflexivity. Qed.

(** lines 1265-1342 *)
Example layout_approval_plugin_Aarch64 : tested Aarch64 b_approval_plugin 40 8 [
     ("type_", 0); ("version", 4); ("open", 8); ("close", 16); ("check", 24); ("show_version", 32)]%string = true.
Proof. reflexivity. Qed.

(** lines 1363-1418 *)
Example layout_sudoers_group_plugin_Aarch64 : tested Aarch64 b_sudoers_group_plugin 32 8 [
     ("version", 0); ("init", 8); ("cleanup", 16); ("query", 24)]%string = true.
Proof. reflexivity. Qed.
