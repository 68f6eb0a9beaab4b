(** The ways of installing the plugin that the repository describes:
    sample/Makefile (run by Dockerfile:100), README.md:52-74, and the Debian
    package (contrib/make_deb_pkg.sh, contrib/DEBIAN/postinst).

    An installation is a list of things done by root to the files of a
    machine, each one an action of World.v.

    Simplifications:
    - every command is run by root and none of them fails, except that a file
      which is not in the repository is not copied;
    - contents of files do not matter, only their names, owners and modes;
    - where a destination is a directory, the directory exists already, so that
      the file goes into it under its own name;
    - the line that sample/Makefile:35 appends to sudo.conf is given by
      [make_entries]; the rest of that file is not modelled;
    - the package of contrib/sudo_pair.spec consists of the shared object alone
      and is left out. *)
From Verif Require Import Base Path World.
Local Open Scope Z_scope.

Definition installer : cred := mkCred 0 [0] true.

(** install(1) for one file: an old file of that name is replaced. *)
Definition install_file (m : Z) (p : bytes) : list (cred * action) :=
  [(installer, Unlink (components p)); (installer, Create (components p) KReg 0 m)].

(** install -d: missing directories above are made with mode 755, the last one
    gets the given mode even if it is there already. *)
Definition above_dirs (p : path) : list path := map (fun n => firstn n p) (seq 2 (List.length p - 2)).
Definition install_dir (m : Z) (p : bytes) : list (cred * action) :=
  map (fun d => (installer, Create d KDir 0 493)) (above_dirs (components p))
  ++ [(installer, Create (components p) KDir 0 m); (installer, Chmod (components p) m)].

(** install -o root -g root -d *)
Definition install_dir_root (m : Z) (p : bytes) : list (cred * action) :=
  install_dir m p ++ [(installer, Chown (components p) 0 0)].

(** The files of sample/ at this commit that the recipes name. *)
Definition in_sample (f : bytes) : bool :=
  existsb (bytes_eqb f) [B "bin/sudo_approve"; B "etc/sudo.conf"; B "etc/sudo_pair.prompt.pair"; B "etc/sudo_pair.prompt.user";
                         B "etc/sudoers.d/sudo_pair"].
Definition from_sample (f : bytes) (does : list (cred * action)) : list (cred * action) := if in_sample f then does else [].

(** sample/Makefile:26-33, with the variables of lines 9-15: [dest] is DESTDIR,
    [prefix] and [exec] are the values of prefix and exec_prefix. *)
Definition make_install (dest prefix exec : bytes) : list (cred * action) :=
  install_dir 420 (dest ++ prefix ++ B "/var/run/sudo_pair")
  ++ from_sample (B "bin/sudo_approve") (install_file 493 (dest ++ exec ++ B "/bin/sudo_approve"))
  ++ install_file 420 (dest ++ exec ++ B "/lib/sudo/sudo_pair.so")
  ++ from_sample (B "etc/sudo_pair.prompt.pair") (install_file 420 (dest ++ prefix ++ B "/etc/sudo_pair.prompt.pair"))
  ++ from_sample (B "etc/sudo_pair.prompt.user") (install_file 420 (dest ++ prefix ++ B "/etc/sudo_pair.prompt.user"))
  ++ from_sample (B "etc/sudoers.d/sudo_pair") (install_file 288 (dest ++ prefix ++ B "/etc/sudoers.d/sudo_pair")).

(** Dockerfile:100, and the defaults of sample/Makefile:9-10 *)
Definition make_docker : list (cred * action) := make_install [] [] (B "/usr").
Definition make_default : list (cred * action) := make_install [] (B "/usr/local") (B "/usr/local").

(** sample/Makefile:20,35: the plugin's options, [gid] being the number of the
    group nogroup as getent(1) prints it. *)
Definition make_entries (gid : bytes) : list bytes := [B "gids_enforced=" ++ gid].

(** README.md:56-73 *)
Definition readme_install : list (cred * action) :=
  install_file 420 (B "/usr/libexec/sudo/libsudopair.dylib")
  ++ install_dir_root 420 (B "/var/run/sudo_pair")
  ++ from_sample (B "bin/sudo_approve") (install_file 493 (B "/usr/bin/sudo_approve"))
  ++ from_sample (B "etc/sudo.conf") (install_file 420 (B "/etc/sudo.conf"))
  ++ from_sample (B "etc/sudo.prompt.user") (install_file 420 (B "/etc/sudo.prompt.user"))
  ++ from_sample (B "etc/sudo.prompt.pair") (install_file 420 (B "/etc/sudo.prompt.pair")).

(** Unpacking a package: directories that exist are left alone, files are
    replaced; what is new belongs to the user [u] and the group [g] who built
    the package and has the mode it had there. *)
Definition unpack_dir (u g : Z) (p : bytes) : list (cred * action) :=
  [(mkCred u [g] true, Create (components p) KDir g 493)].
Definition unpack_file (u g m : Z) (p : bytes) : list (cred * action) :=
  [(installer, Unlink (components p)); (mkCred u [g] true, Create (components p) KReg g m)].

(** contrib/make_deb_pkg.sh:22-39; [m] is the mode of files that are not programs *)
Definition deb_unpack (u g m : Z) : list (cred * action) :=
  unpack_dir u g (B "/usr/lib/sudo") ++ unpack_file u g 493 (B "/usr/lib/sudo/libsudo_pair.so")
  ++ unpack_dir u g (B "/var/run/sudo_pair")
  ++ from_sample (B "bin/sudo_approve") (unpack_file u g 493 (B "/usr/bin/sudo_approve"))
  ++ from_sample (B "etc/sudo.conf") (unpack_file u g m (B "/etc/sudo.conf_for_sudo_pair_sample"))
  ++ from_sample (B "etc/sudo.prompt.user") (unpack_file u g m (B "/etc/sudo.prompt.user"))
  ++ from_sample (B "etc/sudo.prompt.pair") (unpack_file u g m (B "/etc/sudo.prompt.pair")).

Definition set_mode_owner (m : Z) (p : bytes) : list (cred * action) :=
  [(installer, Chmod (components p) m); (installer, Chown (components p) 0 0)].

(** contrib/DEBIAN/postinst:3-22 *)
Definition deb_postinst : list (cred * action) :=
  set_mode_owner 420 (B "/usr/lib/sudo") ++ set_mode_owner 493 (B "/var/run/sudo_pair")
  ++ set_mode_owner 493 (B "/usr/lib/sudo/libsudo_pair.so") ++ set_mode_owner 493 (B "/usr/bin/sudo_approve")
  ++ set_mode_owner 420 (B "/etc/sudo.conf_for_sudo_pair_sample")
  ++ set_mode_owner 420 (B "/etc/sudo.prompt.user") ++ set_mode_owner 420 (B "/etc/sudo.prompt.pair").

Definition deb_install (u g m : Z) : list (cred * action) := deb_unpack u g m ++ deb_postinst.

(** The machine after an installation. *)
Definition after (does : list (cred * action)) (k : kernel) : kernel := fold_left act does k.
