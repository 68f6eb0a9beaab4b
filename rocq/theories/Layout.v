(** The structures that sudo and its plugins share: the declarations of
    sudo_plugin-sys/include/sudo_plugin.h as sudo is compiled with, those of
    sudo_plugin-sys/src/bindings/*.rs as the plugin is, where a compiler puts
    their fields, and the bytes of such a structure in memory. *)
From Verif Require Import Base Path Version Options World Env Core Frontend.
Local Open Scope Z_scope.

(** sudo_plugin-sys/build.rs:30-37: the architectures with bindings. *)
Inductive arch := X86 | X86_64 | Aarch64.

(** The types of fields: int and unsigned int; pointers to objects and to
    functions, which in Rust are [Option]s of functions, [None] being NULL. *)
Inductive ctype := Int | Pointer.

(** System V ABI, and the procedure call standard of Arm. Each of the types is
    aligned to its size. *)
Definition size_of (a : arch) (t : ctype) : nat :=
  match t, a with Int, _ => 4 | Pointer, X86 => 4 | Pointer, _ => 8 end%nat.

Definition structure := list (string * ctype).

(** The least multiple of [k] that is not less than [n]. *)
Definition align (n k : nat) : nat := (n + (k - n mod k) mod k)%nat.

(** C puts each field at the next place it fits; so does [repr(C)]. *)
Fixpoint place (a : arch) (at_ : nat) (s : structure) (f : string) : option (nat * ctype) :=
  match s with
  | [] => None
  | (g, t) :: s' =>
      let o := align at_ (size_of a t) in
      if (g =? f)%string then Some (o, t) else place a (o + size_of a t) s' f
  end.
Fixpoint extent (a : arch) (at_ : nat) (s : structure) : nat :=
  match s with
  | [] => at_
  | (_, t) :: s' => extent a (align at_ (size_of a t) + size_of a t) s'
  end.
Definition align_of (a : arch) (s : structure) : nat := fold_right Nat.max 1%nat (map (fun f => size_of a (snd f)) s).
Definition sizeof (a : arch) (s : structure) : nat := align (extent a 0 s) (align_of a s).

(** ** Bytes of a structure

    All three are little-endian here (there are big-endian systems on aarch64;
    they are left out). *)
Fixpoint le_bytes (n : nat) (z : Z) : bytes :=
  match n with O => [] | S n' => zb (z mod 256) :: le_bytes n' (z / 256) end.
Fixpoint le_value (l : bytes) : Z :=
  match l with [] => 0 | b :: l' => bz b + 256 * le_value l' end.

Definition load (o n : nat) (img : bytes) : Z := le_value (firstn n (skipn o img)).
Definition store (o n : nat) (z : Z) (img : bytes) : bytes :=
  firstn o img ++ le_bytes n z ++ skipn (o + n) img.

(** Reading and writing a field of the structure. *)
Definition get_field (a : arch) (s : structure) (f : string) (img : bytes) : option Z :=
  match place a 0 s f with Some (o, t) => Some (load o (size_of a t) img) | None => None end.
Definition set_field (a : arch) (s : structure) (f : string) (z : Z) (img : bytes) : bytes :=
  match place a 0 s f with Some (o, t) => store o (size_of a t) z img | None => img end.

(** The structure with the given values; [img] is what was in memory before,
    and is still in the gaps between the fields. *)
Definition initialised (a : arch) (s : structure) (v : string -> Z) (img : bytes) : bytes :=
  fold_left (fun i f => set_field a s (fst f) (v (fst f)) i) s img.

(** ** The header *)

(** sudo_plugin.h:42-53 *)
Definition h_sudo_conv_message : structure := [
  ("msg_type", Int); ("timeout", Int); ("msg", Pointer)]%string.

(** sudo_plugin.h:64-66 *)
Definition h_sudo_conv_reply : structure := [
  ("reply", Pointer)]%string.

(** sudo_plugin.h:79-84 *)
Definition h_sudo_conv_callback : structure := [
  ("version", Int); ("closure", Pointer); ("on_suspend", Pointer); ("on_resume", Pointer)]%string.

(** sudo_plugin.h:106-111 *)
Definition h_sudo_hook : structure := [
  ("hook_version", Int); ("hook_type", Int); ("hook_fn", Pointer); ("closure", Pointer)]%string.

(** sudo_plugin.h:142-152 *)
Definition h_sudo_plugin_event : structure := [
  ("set", Pointer); ("add", Pointer); ("del", Pointer); ("pending", Pointer); ("fd", Pointer);
  ("setbase", Pointer); ("loopbreak", Pointer); ("free", Pointer)]%string.

(** sudo_plugin.h:163-185 *)
Definition h_policy_plugin : structure := [
  ("type", Int); ("version", Int); ("open", Pointer); ("close", Pointer);
  ("show_version", Pointer); ("check_policy", Pointer); ("list", Pointer); ("validate", Pointer);
  ("invalidate", Pointer); ("init_session", Pointer); ("register_hooks", Pointer);
  ("deregister_hooks", Pointer); ("event_alloc", Pointer)]%string.

(** sudo_plugin.h:188-212 *)
Definition h_io_plugin : structure := [
  ("type", Int); ("version", Int); ("open", Pointer); ("close", Pointer);
  ("show_version", Pointer); ("log_ttyin", Pointer); ("log_ttyout", Pointer);
  ("log_stdin", Pointer); ("log_stdout", Pointer); ("log_stderr", Pointer);
  ("register_hooks", Pointer); ("deregister_hooks", Pointer); ("change_winsize", Pointer);
  ("log_suspend", Pointer); ("event_alloc", Pointer)]%string.

(** sudo_plugin.h:221-244 *)
Definition h_audit_plugin : structure := [
  ("type", Int); ("version", Int); ("open", Pointer); ("close", Pointer); ("accept", Pointer);
  ("reject", Pointer); ("error", Pointer); ("show_version", Pointer); ("register_hooks", Pointer);
  ("deregister_hooks", Pointer); ("event_alloc", Pointer)]%string.

(** sudo_plugin.h:247-260 *)
Definition h_approval_plugin : structure := [
  ("type", Int); ("version", Int); ("open", Pointer); ("close", Pointer); ("check", Pointer);
  ("show_version", Pointer)]%string.

(** sudo_plugin.h:280-285 *)
Definition h_sudoers_group_plugin : structure := [
  ("version", Int); ("init", Pointer); ("cleanup", Pointer); ("query", Pointer)]%string.

(** ** The bindings *)

(** bindings/sudo_plugin.x86-64.rs:42-46, sudo_plugin.x86.rs:42-46,
    sudo_plugin.aarch64.rs:42-46 *)
Definition b_sudo_conv_message : structure := [
  ("msg_type", Int); ("timeout", Int); ("msg", Pointer)]%string.

(** bindings/sudo_plugin.x86-64.rs:101-103, sudo_plugin.x86.rs:101-103,
    sudo_plugin.aarch64.rs:97-99 *)
Definition b_sudo_conv_reply : structure := [
  ("reply", Pointer)]%string.

(** bindings/sudo_plugin.x86-64.rs:138-143, sudo_plugin.x86.rs:138-143,
    sudo_plugin.aarch64.rs:134-139 *)
Definition b_sudo_conv_callback : structure := [
  ("version", Int); ("closure", Pointer); ("on_suspend", Pointer); ("on_resume", Pointer)]%string.

(** bindings/sudo_plugin.x86-64.rs:255-260, sudo_plugin.x86.rs:255-260,
    sudo_plugin.aarch64.rs:246-251 *)
Definition b_sudo_hook : structure := [
  ("hook_version", Int); ("hook_type", Int); ("hook_fn", Pointer); ("closure", Pointer)]%string.

(** bindings/sudo_plugin.x86-64.rs:337-382, sudo_plugin.x86.rs:337-382,
    sudo_plugin.aarch64.rs:326-371 *)
Definition b_sudo_plugin_event : structure := [
  ("set", Pointer); ("add", Pointer); ("del", Pointer); ("pending", Pointer); ("fd", Pointer);
  ("setbase", Pointer); ("loopbreak", Pointer); ("free", Pointer)]%string.

(** bindings/sudo_plugin.x86-64.rs:507-590, sudo_plugin.x86.rs:507-590,
    sudo_plugin.aarch64.rs:477-560 *)
Definition b_policy_plugin : structure := [
  ("type_", Int); ("version", Int); ("open", Pointer); ("close", Pointer);
  ("show_version", Pointer); ("check_policy", Pointer); ("list", Pointer); ("validate", Pointer);
  ("invalidate", Pointer); ("init_session", Pointer); ("register_hooks", Pointer);
  ("deregister_hooks", Pointer); ("event_alloc", Pointer)]%string.

(** bindings/sudo_plugin.x86-64.rs:771-870, sudo_plugin.x86.rs:771-870,
    sudo_plugin.aarch64.rs:726-825 *)
Definition b_io_plugin : structure := [
  ("type_", Int); ("version", Int); ("open", Pointer); ("close", Pointer);
  ("show_version", Pointer); ("log_ttyin", Pointer); ("log_ttyout", Pointer);
  ("log_stdin", Pointer); ("log_stdout", Pointer); ("log_stderr", Pointer);
  ("register_hooks", Pointer); ("deregister_hooks", Pointer); ("change_winsize", Pointer);
  ("log_suspend", Pointer); ("event_alloc", Pointer)]%string.

(** bindings/sudo_plugin.x86-64.rs:1075-1153, sudo_plugin.x86.rs:1075-1153,
    sudo_plugin.aarch64.rs:1017-1095 *)
Definition b_audit_plugin : structure := [
  ("type_", Int); ("version", Int); ("open", Pointer); ("close", Pointer); ("accept", Pointer);
  ("reject", Pointer); ("error", Pointer); ("show_version", Pointer); ("register_hooks", Pointer);
  ("deregister_hooks", Pointer); ("event_alloc", Pointer)]%string.

(** bindings/sudo_plugin.x86-64.rs:1306-1337, sudo_plugin.x86.rs:1306-1337,
    sudo_plugin.aarch64.rs:1233-1264 *)
Definition b_approval_plugin : structure := [
  ("type_", Int); ("version", Int); ("open", Pointer); ("close", Pointer); ("check", Pointer);
  ("show_version", Pointer)]%string.

(** bindings/sudo_plugin.x86-64.rs:1431-1448, sudo_plugin.x86.rs:1431-1448,
    sudo_plugin.aarch64.rs:1345-1362 *)
Definition b_sudoers_group_plugin : structure := [
  ("version", Int); ("init", Pointer); ("cleanup", Pointer); ("query", Pointer)]%string.

Definition structures : list (structure * structure) := [
  (h_sudo_conv_message, b_sudo_conv_message);
  (h_sudo_conv_reply, b_sudo_conv_reply);
  (h_sudo_conv_callback, b_sudo_conv_callback);
  (h_sudo_hook, b_sudo_hook);
  (h_sudo_plugin_event, b_sudo_plugin_event);
  (h_policy_plugin, b_policy_plugin);
  (h_io_plugin, b_io_plugin);
  (h_audit_plugin, b_audit_plugin);
  (h_approval_plugin, b_approval_plugin);
  (h_sudoers_group_plugin, b_sudoers_group_plugin)].

(** [type] is a word of Rust; the field is called [type_] there. *)
Definition rust_name (f : string) : string := if (f =? "type")%string then "type_"%string else f.

(** ** The exported table

    [A f] is the address at which the linker put the function for the field [f]. *)
Definition address {X} (A : string -> Z) (f : string) (x : option X) : Z :=
  match x with Some _ => A f | None => 0 end.
Definition table_value {P} (A : string -> Z) (T : io_table P) (f : string) : Z :=
  match f with
  | "type_" => t_type T
  | "version" => t_version T
  | "open" => address A f (t_open T)
  | "close" => address A f (t_close T)
  | "show_version" => address A f (t_show_version T)
  | "log_ttyin" => address A f (t_log_ttyin T)
  | "log_ttyout" => address A f (t_log_ttyout T)
  | "log_stdin" => address A f (t_log_stdin T)
  | "log_stdout" => address A f (t_log_stdout T)
  | "log_stderr" => address A f (t_log_stderr T)
  | "register_hooks" => address A f (t_register_hooks T)
  | "deregister_hooks" => address A f (t_deregister_hooks T)
  | "change_winsize" => address A f (t_change_winsize T)
  | "log_suspend" => address A f (t_log_suspend T)
  | "event_alloc" => address A f (t_event_alloc T)
  | _ => 0
  end%string.

(** macros.rs:92-109: the static in memory. *)
Definition table_bytes {P} (a : arch) (A : string -> Z) (T : io_table P) (img : bytes) : bytes :=
  initialised a b_io_plugin (table_value A T) img.
