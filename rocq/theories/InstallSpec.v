(** Vocabulary for statements about installations. *)
From Verif Require Import Base Num Path Options World Sys Io Socket Env Core Pair Spec TraceSpec AdversarySpec HonourSpec.
Local Open Scope Z_scope.

(** Under the name [p], and no other, there is the file [i]. *)
Definition FileAt (k : kernel) (p : bytes) (i : inode) : Prop :=
  exists n, k_names k (components p) = Some n /\ k_inodes k n = i /\ forall q, k_names k q = Some n -> q = components p.

(** At [p] there is a directory, perhaps by way of symbolic links. *)
Definition DirectoryAt (k : kernel) (p : bytes) : Prop :=
  exists n, resolve k (components p) = Some n /\ i_kind (k_inodes k n) = KDir.

(** At [p] there is nothing, or a regular file that may be replaced. *)
Definition Vacant (k : kernel) (p : bytes) : Prop :=
  forall n, k_names k (components p) = Some n -> i_kind (k_inodes k n) = KReg.

(** At [p] there is nothing, or a directory of its own. *)
Definition MayBeDirectory (k : kernel) (p : bytes) : Prop :=
  k_names k (components p) = None \/ exists i, FileAt k p i /\ i_kind i = KDir.

(** A machine on which the plugin can be installed: [dirs] are directories,
    [files] can be put in place, and so can the directories [made]; no symbolic
    link leads to one of the latter. *)
Record Host (dirs made files : list bytes) (k : kernel) : Prop := {
  ho_numbered : Numbered k;
  ho_empty : k_names k [] = None;
  ho_dirs : Forall (DirectoryAt k) dirs;
  ho_files : Forall (Vacant k) files;
  ho_made : Forall (MayBeDirectory k) made;
  ho_apart : forall p d n, In p made -> resolve k d = Some n -> k_names k (components p) = Some n -> d = components p
}.

(** Reading a file succeeds only if there is one. *)
Definition HonestFiles (evs : list event) : Prop :=
  forall ev p d, In ev evs -> Is (CReadFile p) (AData d) ev -> resolve (e_pre ev) (components p) <> None.

(** The names that an action of a process may add or take away. *)
Definition touched (a : action) : list path :=
  match a with
  | Unlink p | Create p _ _ _ => [p]
  | Rename p q => [p; q]
  | HardLink p q => [q]
  | _ => []
  end.

(** Where the plugin looks unless it is told otherwise. *)
Definition sockdir : bytes := B "/var/run/sudo_pair".
Definition user_prompt_file : bytes := B "/etc/sudo_pair.prompt.user".
Definition pair_prompt_file : bytes := B "/etc/sudo_pair.prompt.pair".

(** What is there before, and what is put in place, with each of the recipes. *)
Definition above_sock : list bytes := [B "/"; B "/var"; B "/var/run"].
Definition docker_dirs : list bytes := above_sock ++ [B "/usr/bin"; B "/usr/lib/sudo"; B "/etc"; B "/etc/sudoers.d"].
Definition docker_files : list bytes :=
  [B "/usr/bin/sudo_approve"; B "/usr/lib/sudo/sudo_pair.so"; B "/etc/sudo_pair.prompt.pair"; B "/etc/sudo_pair.prompt.user";
   B "/etc/sudoers.d/sudo_pair"].
Definition readme_dirs : list bytes := above_sock ++ [B "/usr/bin"; B "/usr/libexec/sudo"; B "/etc"].
Definition readme_files : list bytes :=
  [B "/usr/libexec/sudo/libsudopair.dylib"; B "/usr/bin/sudo_approve"; B "/etc/sudo.conf"].
Definition deb_dirs : list bytes := above_sock ++ [B "/usr/lib"; B "/usr/bin"; B "/etc"].
Definition deb_made : list bytes := [sockdir; B "/usr/lib/sudo"].
Definition deb_files : list bytes :=
  [B "/usr/lib/sudo/libsudo_pair.so"; B "/usr/bin/sudo_approve"; B "/etc/sudo.conf_for_sudo_pair_sample";
   B "/etc/sudo.prompt.user"; B "/etc/sudo.prompt.pair"].

(** A peer that connects in time gets the request approved on [k]. *)
Definition CanApprove (pl : platform) (a : open_args) (q : path) (peer : cred) (k : kernel) : Prop :=
  exists t1 t2 st' w', Calm t1 /\ Calm t2
    /\ core_open SudoPair pl a (pstate0 _) (mkWorld k (t1 ++ ([(peer, Connect q)], ANum 1) :: t2) []) = (Done (1, st'), w')
    /\ w_script w' = [] /\ st_plugin st' <> None.

(** Nothing that unprivileged processes do on [k] gets it approved. *)
Definition NeverByUsers (pl : platform) (a : open_args) (k : kernel) : Prop :=
  forall w st' w', w_k w = k ->
    Everyone (fun c x => cr_priv c = false /\ (cr_uid c <> pl_euid pl \/ OnlyConnects x)) w ->
    core_open SudoPair pl a (pstate0 _) w <> (Done (1, st'), w').
