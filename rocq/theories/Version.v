(** Model of sudo_plugin-sys/src/lib.rs:165-207 and
    sudo_plugin/src/version.rs. All arithmetic is on [c_uint] (32 bits). *)
From Verif Require Import Base.
Local Open Scope Z_scope.

Definition u32_wrap (z : Z) : Z := z mod 4294967296.

(** sudo_plugin-sys/src/lib.rs:165-167: [major << 16 | minor]; the shift
    discards bits above bit 31. *)
Definition sudo_api_mkversion (major minor : Z) : Z :=
  Z.lor (u32_wrap (Z.shiftl major 16)) minor.

(** sudo_plugin-sys/src/lib.rs:185-187 *)
Definition sudo_api_version_get_major (v : Z) : Z := Z.shiftr v 16.

(** sudo_plugin-sys/src/lib.rs:205-207 *)
Definition sudo_api_version_get_minor (v : Z) : Z := Z.land v 65535.

(** sudo_plugin/src/version.rs:23-27 *)
Record version := mkVersion { v_major : Z; v_minor : Z }.

(** sudo_plugin/src/version.rs:21 *)
Definition MINIMUM : version := mkVersion 1 9.

(** sudo_plugin/src/version.rs:34-42; the [as u16] casts are explicit. *)
Definition from_ffi (v : Z) : version :=
  mkVersion (sudo_api_version_get_major v mod 65536)
            (sudo_api_version_get_minor v mod 65536).

(** sudo_plugin/src/version.rs:44-49 *)
Definition into_ffi (v : version) : Z := sudo_api_mkversion (v_major v) (v_minor v).

(** The derived [Ord] (version.rs:23) is lexicographic, major first. *)
Definition version_leb (a b : version) : bool :=
  (v_major a <? v_major b) || ((v_major a =? v_major b) && (v_minor a <=? v_minor b)).

(** sudo_plugin/src/version.rs:55-57 *)
Definition supported (v : version) : bool := version_leb MINIMUM v.

(** sudo_plugin-sys/src/lib.rs:210-213 with bindings/sudo_plugin.*.rs:3-4 *)
Definition SUDO_API_VERSION : Z := sudo_api_mkversion 1 17.
