(** A plugin that overrides no default of the trait
    (sudo_plugin/src/plugin/io_plugin.rs:26-186): only what has no default is
    given. *)
From Verif Require Import Base Options World Sys Io Env Core.
Local Open Scope Z_scope.

(** [open], the errors and the destructor are the plugin's own. The version is
    that of the sudo_plugin crate, in which the default is expanded (39;
    sudo_plugin/Cargo.toml:3); the hints are obeyed (49); [close] takes the
    plugin by value and does nothing, so that the plugin is dropped (86); the
    other methods do nothing and succeed (100-102, 116-118, 131-133, 148-150,
    165-167, 181-183). *)
Definition defaults (S E : Type) (name : bytes) (open : platform -> io_env -> M (result S E)) (drop : S -> M unit)
  (from_error : error -> E) (open_status log_status : E -> Z) (display : E -> bytes) (source : E -> option bytes)
  : plugin := {|
  pg_state := S; pg_error := E; pg_name := name; pg_version := B "1.2.0"; pg_ignore_hints := false;
  pg_open := open; pg_close := fun p _ _ => drop p; pg_drop := drop;
  pg_log := fun _ _ _ _ => ret (Ok tt); pg_winsize := fun _ _ _ _ => ret (Ok tt);
  pg_from_error := from_error; pg_open_status := open_status; pg_log_status := log_status;
  pg_display := display; pg_source := source |}.
