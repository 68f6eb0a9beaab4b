(** Specifications of the pure parts, written without the model's parsing
    functions: what the arrays handed over by sudo say, what the prompt
    templates mean, when a pair is required. Only data types of the model
    ([bytes], [raw], [open_args], [platform]) are used. *)
From Verif Require Import Base Options Env Core.
Local Open Scope Z_scope.

(** ** C strings and option arrays *)

(** The C string stored in a buffer: the bytes before the first NUL. *)
Definition CString (buf s : bytes) : Prop :=
  ~ In x00 s /\ (buf = s \/ exists rest, buf = s ++ x00 :: rest).

(** An entry "k=v" means (k, v), split at the first '='; an entry without '='
    is its own key and value. *)
Definition Means (e k v : bytes) : Prop :=
  (~ In "="%byte k /\ e = k ++ "="%byte :: v)
  \/ (~ In "="%byte e /\ k = e /\ v = e).

Definition EntryMeans (buf k v : bytes) : Prop := exists e, CString buf e /\ Means e k v.

(** The array gives key [k] the value [v]: the last entry for [k] counts. *)
Definition Provides (r : raw) (k v : bytes) : Prop :=
  exists before buf after,
    r = Some (before ++ buf :: after)
    /\ EntryMeans buf k v
    /\ forall later v', In later after -> ~ EntryMeans later k v'.

(** ** UTF-8 *)

(** Unicode scalar values: code points other than surrogates. *)
Definition Scalar (c : Z) : Prop := 0 <= c <= 1114111 /\ ~ (55296 <= c <= 57343).

(** RFC 3629. *)
Definition utf8_encode (c : Z) : bytes :=
  if c <? 128 then [zb c]
  else if c <? 2048 then [zb (192 + c / 64); zb (128 + c mod 64)]
  else if c <? 65536 then
    [zb (224 + c / 4096); zb (128 + (c / 64) mod 64); zb (128 + c mod 64)]
  else [zb (240 + c / 262144); zb (128 + (c / 4096) mod 64);
        zb (128 + (c / 64) mod 64); zb (128 + c mod 64)].

Definition Utf8 (s : bytes) : Prop := exists cs, Forall Scalar cs /\ s = flat_map utf8_encode cs.

(** ** Numbers, booleans, lists *)

Definition IsDigit (b : byte) : Prop := 48 <= bz b <= 57.

Definition digits_value (s : bytes) : Z := fold_left (fun n b => 10 * n + (bz b - 48)) s 0.

(** One or more decimal digits denoting [n]. *)
Definition Digits (s : bytes) (n : Z) : Prop :=
  s <> [] /\ Forall IsDigit s /\ n = digits_value s.

(** An optional sign, '-' being allowed for signed types only, and digits. *)
Definition Numeral (signed : bool) (s : bytes) (n : Z) : Prop :=
  Digits s n
  \/ (exists t, s = "+"%byte :: t /\ Digits t n)
  \/ (signed = true /\ exists t m, s = "-"%byte :: t /\ Digits t m /\ n = - m).

(** Unsigned / signed integers of a given width. *)
Definition UInt (bits : Z) (s : bytes) (n : Z) : Prop :=
  Numeral false s n /\ 0 <= n < 2 ^ bits.
Definition SInt (bits : Z) (s : bytes) (n : Z) : Prop :=
  Numeral true s n /\ - 2 ^ (bits - 1) <= n < 2 ^ (bits - 1).

Definition Bool (s : bytes) (b : bool) : Prop :=
  (s = B "true" /\ b = true) \/ (s = B "false" /\ b = false).

Definition Text (s t : bytes) : Prop := s = t.

(** [s] is the elements [l] written one after the other with [sep] between
    them, none containing [sep]; there is at least one element. *)
Inductive Separated (sep : byte) : bytes -> list bytes -> Prop :=
| Sep_one x : ~ In sep x -> Separated sep x [x]
| Sep_more x s l : ~ In sep x -> Separated sep s l -> Separated sep (x ++ sep :: s) (x :: l).

Definition ListOf {A} (sep : byte) (R : bytes -> A -> Prop) (s : bytes) (l : list A) : Prop :=
  exists pieces, Separated sep s pieces /\ Forall2 R pieces l.

Definition UIntList (bits : Z) := ListOf ","%byte (UInt bits).

(** ** Reading a typed option *)

(** Key [k] is provided, is text, and denotes [x]. *)
Definition ReadsKey {A} (r : raw) (k : bytes) (R : bytes -> A -> Prop) (x : A) : Prop :=
  exists v, Provides r k v /\ Utf8 v /\ R v x.

Definition Reads {A} (r : raw) (k : string) := @ReadsKey A r (B k).

Definition Unreadable {A} (r : raw) (k : string) (R : bytes -> A -> Prop) : Prop :=
  forall x, ~ Reads r k R x.

Definition ReadsOr {A} (r : raw) (k : string) (R : bytes -> A -> Prop) (d x : A) : Prop :=
  Reads r k R x \/ (Unreadable r k R /\ x = d).

Definition ReadsOpt {A} (r : raw) (k : string) (R : bytes -> A -> Prop) (o : option A) : Prop :=
  match o with Some x => Reads r k R x | None => Unreadable r k R end.

(** ** The request described by the arguments of an open *)

(** Everything about a request that the plugin's behaviour may depend on. *)
Record request := mkRequest {
  (* who asks, from where *)
  rq_uid : Z; rq_euid : Z; rq_gid : Z; rq_groups : list Z; rq_pid : Z;
  rq_user : bytes; rq_host : bytes; rq_user_cwd : bytes;
  rq_lines : Z; rq_cols : Z; rq_tty : option bytes;
  (* what is to be run, as whom *)
  rq_command : bytes; rq_policy_cwd : option bytes;
  rq_to_uid : Z; rq_to_gid : Z; rq_to_groups : option (list Z);
  rq_preserve_groups : bool;
  rq_log : stream -> bool;
  (* how sudo was invoked *)
  rq_progname : bytes; rq_args : list bytes;
  rq_f_sudoedit : bool; rq_f_user : option bytes; rq_f_group : option bytes;
  rq_f_prompt : option bytes; rq_f_login : bool; rq_f_shell : bool;
  rq_f_set_home : bool; rq_f_preserve_env : bool; rq_f_preserve_groups : bool;
  rq_f_reset : bool; rq_f_noninteractive : bool; rq_f_class : option bytes;
  rq_f_role : option bytes; rq_f_type : option bytes; rq_f_auth : option bytes;
  rq_f_close_from : option Z;
  (* plugin configuration *)
  rq_binary_path : bytes; rq_user_prompt_path : bytes; rq_pair_prompt_path : bytes;
  rq_socket_dir : bytes; rq_enforced : list Z; rq_exempted : list Z;
  (* whether sudo offers a printf *)
  rq_printf : bool
}.

(** A well-formed network address entry: "address/mask". *)
Definition AddrMask (pl : platform) (piece : bytes) : Prop :=
  exists a m, piece = a ++ "/"%byte :: m /\ ~ In "/"%byte a
              /\ pl_parse_ip pl a <> None /\ pl_parse_ip pl m <> None.

(** The network_addrs setting has an entry that is an address without mask,
    preceded only by well-formed entries. *)
Definition MasklessAddr (pl : platform) (r : raw) : Prop :=
  exists v before piece after,
    Provides r (B "network_addrs") v /\ Utf8 v
    /\ Separated " "%byte v (before ++ piece :: after)
    /\ Forall (AddrMask pl) before
    /\ ~ In "/"%byte piece /\ pl_parse_ip pl piece <> None.

(** sudo's API version word: the high half is the major number. *)
Definition ApiAtLeast_1_9 (v : Z) : Prop := 65536 * 1 + 9 <= v mod 2 ^ 32.

(** A user-info array in which one of the required entries is absent, not
    UTF-8, or malformed. *)
Definition UserInfoIncomplete (r : raw) : Prop :=
  Unreadable r "cwd" Text \/ Unreadable r "egid" (UInt 32) \/ Unreadable r "euid" (UInt 32)
  \/ Unreadable r "gid" (UInt 32) \/ Unreadable r "groups" (UIntList 32)
  \/ Unreadable r "host" Text \/ Unreadable r "pgid" (SInt 32) \/ Unreadable r "pid" (SInt 32)
  \/ Unreadable r "ppid" (SInt 32) \/ Unreadable r "uid" (UInt 32) \/ Unreadable r "user" Text.

(** A user-info array with all of them. *)
Definition UserInfoComplete (r : raw) : Prop :=
  (exists x, Reads r "cwd" Text x) /\ (exists x, Reads r "egid" (UInt 32) x)
  /\ (exists x, Reads r "euid" (UInt 32) x) /\ (exists x, Reads r "gid" (UInt 32) x)
  /\ (exists x, Reads r "groups" (UIntList 32) x) /\ (exists x, Reads r "host" Text x)
  /\ (exists x, Reads r "pgid" (SInt 32) x) /\ (exists x, Reads r "pid" (SInt 32) x)
  /\ (exists x, Reads r "ppid" (SInt 32) x) /\ (exists x, Reads r "uid" (UInt 32) x)
  /\ (exists x, Reads r "user" Text x).

(** A settings array with the required entries. *)
Definition SettingsComplete (r : raw) : Prop :=
  (exists x, Reads r "plugin_dir" Text x) /\ (exists x, Reads r "plugin_path" Text x)
  /\ (exists x, Reads r "progname" Text x).

(** Which arrays are complete enough to be understood at all, and what they
    then say. Keys are sudo's (sudo_plugin(8)). *)
Record Describes (pl : platform) (a : open_args) (rq : request) : Prop := {
  d_version : ApiAtLeast_1_9 (oa_version a);
  d_printf : rq_printf rq = oa_printf a;
  d_args : Forall2 CString (oa_argv a) (rq_args rq);
  (* settings *)
  d_plugin_dir : exists x, Reads (oa_settings a) "plugin_dir" Text x;
  d_plugin_path : exists x, Reads (oa_settings a) "plugin_path" Text x;
  d_progname : Reads (oa_settings a) "progname" Text (rq_progname rq);
  d_sudoedit : ReadsOr (oa_settings a) "sudoedit" Bool false (rq_f_sudoedit rq);
  d_f_user : ReadsOpt (oa_settings a) "runas_user" Text (rq_f_user rq);
  d_f_group : ReadsOpt (oa_settings a) "runas_group" Text (rq_f_group rq);
  d_f_prompt : ReadsOpt (oa_settings a) "prompt" Text (rq_f_prompt rq);
  d_f_login : ReadsOr (oa_settings a) "login_shell" Bool false (rq_f_login rq);
  d_f_shell : ReadsOr (oa_settings a) "run_shell" Bool false (rq_f_shell rq);
  d_f_set_home : ReadsOr (oa_settings a) "set_home" Bool false (rq_f_set_home rq);
  d_f_preserve_env : ReadsOr (oa_settings a) "preserve_environment" Bool false (rq_f_preserve_env rq);
  d_f_preserve_groups : ReadsOr (oa_settings a) "preserve_groups" Bool false (rq_f_preserve_groups rq);
  d_f_reset : ReadsOr (oa_settings a) "ignore_ticket" Bool false (rq_f_reset rq);
  d_f_noninteractive : ReadsOr (oa_settings a) "noninteractive" Bool false (rq_f_noninteractive rq);
  d_f_class : ReadsOpt (oa_settings a) "login_class" Text (rq_f_class rq);
  d_f_role : ReadsOpt (oa_settings a) "selinux_role" Text (rq_f_role rq);
  d_f_type : ReadsOpt (oa_settings a) "selinux_type" Text (rq_f_type rq);
  d_f_auth : ReadsOpt (oa_settings a) "bsd_auth_type" Text (rq_f_auth rq);
  d_f_close_from : ReadsOpt (oa_settings a) "closefrom" (UInt 64) (rq_f_close_from rq);
  (* user info *)
  d_user_cwd : Reads (oa_user_info a) "cwd" Text (rq_user_cwd rq);
  d_egid : exists x, Reads (oa_user_info a) "egid" (UInt 32) x;
  d_euid : Reads (oa_user_info a) "euid" (UInt 32) (rq_euid rq);
  d_gid : Reads (oa_user_info a) "gid" (UInt 32) (rq_gid rq);
  d_groups : Reads (oa_user_info a) "groups" (UIntList 32) (rq_groups rq);
  d_host : Reads (oa_user_info a) "host" Text (rq_host rq);
  d_pgid : exists x, Reads (oa_user_info a) "pgid" (SInt 32) x;
  d_pid : Reads (oa_user_info a) "pid" (SInt 32) (rq_pid rq);
  d_ppid : exists x, Reads (oa_user_info a) "ppid" (SInt 32) x;
  d_uid : Reads (oa_user_info a) "uid" (UInt 32) (rq_uid rq);
  d_user : Reads (oa_user_info a) "user" Text (rq_user rq);
  d_lines : ReadsOr (oa_user_info a) "lines" (UInt 64) 24 (rq_lines rq);
  d_cols : ReadsOr (oa_user_info a) "cols" (UInt 64) 80 (rq_cols rq);
  d_tty : ReadsOpt (oa_user_info a) "tty" Text (rq_tty rq);
  (* command info *)
  d_command : ReadsOr (oa_command_info a) "command" Text [] (rq_command rq);
  d_policy_cwd : ReadsOpt (oa_command_info a) "cwd" Text (rq_policy_cwd rq);
  d_to_uid : exists u, ReadsOr (oa_command_info a) "runas_uid" (UInt 32) (pl_euid pl) u
                       /\ ReadsOr (oa_command_info a) "runas_euid" (UInt 32) u (rq_to_uid rq);
  d_to_gid : exists g, ReadsOr (oa_command_info a) "runas_gid" (UInt 32) (pl_egid pl) g
                       /\ ReadsOr (oa_command_info a) "runas_egid" (UInt 32) g (rq_to_gid rq);
  d_to_groups : ReadsOpt (oa_command_info a) "runas_groups" (UIntList 32) (rq_to_groups rq);
  d_preserve_groups : ReadsOr (oa_command_info a) "preserve_groups" Bool false (rq_preserve_groups rq);
  d_log_ttyin : ReadsOr (oa_command_info a) "iolog_ttyin" Bool false (rq_log rq Ttyin);
  d_log_ttyout : ReadsOr (oa_command_info a) "iolog_ttyout" Bool false (rq_log rq Ttyout);
  d_log_stdin : ReadsOr (oa_command_info a) "iolog_stdin" Bool false (rq_log rq Stdin);
  d_log_stdout : ReadsOr (oa_command_info a) "iolog_stdout" Bool false (rq_log rq Stdout);
  d_log_stderr : ReadsOr (oa_command_info a) "iolog_stderr" Bool false (rq_log rq Stderr);
  (* plugin options *)
  d_binary_path : ReadsOr (oa_plugin_options a) "binary_path" Text
                    (B "/usr/bin/sudo_approve") (rq_binary_path rq);
  d_user_prompt_path : ReadsOr (oa_plugin_options a) "user_prompt_path" Text
                    (B "/etc/sudo_pair.prompt.user") (rq_user_prompt_path rq);
  d_pair_prompt_path : ReadsOr (oa_plugin_options a) "pair_prompt_path" Text
                    (B "/etc/sudo_pair.prompt.pair") (rq_pair_prompt_path rq);
  d_socket_dir : ReadsOr (oa_plugin_options a) "socket_dir" Text
                    (B "/var/run/sudo_pair") (rq_socket_dir rq);
  d_enforced : ReadsOr (oa_plugin_options a) "gids_enforced" (UIntList 32) [0] (rq_enforced rq);
  d_exempted : ReadsOr (oa_plugin_options a) "gids_exempted" (UIntList 32) [] (rq_exempted rq)
}.

(** ** Paths *)

(** Two spellings of a path are the same path if one can be turned into the
    other by adding or removing redundant '/' and interior or trailing "."
    components. *)
Inductive SamePath : bytes -> bytes -> Prop :=
| SP_refl p : SamePath p p
| SP_sym p q : SamePath p q -> SamePath q p
| SP_trans p q r : SamePath p q -> SamePath q r -> SamePath p r
| SP_slash p q : SamePath (p ++ "/"%byte :: "/"%byte :: q) (p ++ "/"%byte :: q)
| SP_dot p q : SamePath (p ++ B "/./" ++ q) (p ++ B "/" ++ q)
| SP_trailing_slash p : p <> [] -> SamePath (p ++ B "/") p
| SP_trailing_dot p : SamePath (p ++ B "/.") (p ++ B "/").

(** ** When a pair is required *)

Definition Meets (a b : list Z) : Prop := exists g, In g a /\ In g b.

(** The groups the command will have. *)
Definition GainsGroup (rq : request) (g : Z) : Prop :=
  g = rq_to_gid rq
  \/ In g (match rq_to_groups rq with Some l => l | None => rq_groups rq end).

Definition Exempt (rq : request) : Prop :=
  rq_uid rq = rq_euid rq
  \/ (rq_uid rq = rq_to_uid rq /\ rq_gid rq = rq_to_gid rq)
  \/ SamePath (rq_command rq) (rq_binary_path rq)
  \/ (rq_log rq Ttyout = false /\ rq_log rq Stdout = false /\ rq_log rq Stderr = false)
  \/ Meets (rq_exempted rq) (rq_groups rq)
  \/ (forall g, In g (rq_enforced rq) -> ~ GainsGroup rq g).

(** Decimal text. *)
Definition Decimal (n : Z) (s : bytes) : Prop :=
  (0 <= n /\ Digits s n /\ (hd x00 s = "0"%byte -> s = B "0"))
  \/ (n < 0 /\ exists t, s = "-"%byte :: t /\ Digits t (- n) /\ hd x00 t <> "0"%byte).

(** The name of the socket: "<uid>.<pid>.sock" *)
Definition SocketName (rq : request) (n : bytes) : Prop :=
  exists u p, Decimal (rq_uid rq) u /\ Decimal (rq_pid rq) p /\ n = u ++ B "." ++ p ++ B ".sock".

(** ** Prompt templates *)

(** [Expands esc def template out]: the meaning of the escape language, where
    [def c x] says that the directive [c] stands for the text [x]. *)
Inductive Expands (esc : byte) (def : byte -> bytes -> Prop) : bytes -> bytes -> Prop :=
| Ex_end : Expands esc def [] []
| Ex_lone : Expands esc def [esc] []
| Ex_directive c x t out :
    def c x -> Expands esc def t out -> Expands esc def (esc :: c :: t) (x ++ out)
| Ex_literal c t out :
    c <> esc -> Expands esc def t out -> Expands esc def (c :: t) (c :: out).

(** Templates that do not end in the middle of a directive. *)
Inductive Closed (esc : byte) : bytes -> Prop :=
| Cl_nil : Closed esc []
| Cl_dir c t : Closed esc t -> Closed esc (esc :: c :: t)
| Cl_lit c t : c <> esc -> Closed esc t -> Closed esc (c :: t).

(** What a directive stands for after a sequence of definitions: its last
    definition, or itself if it has none. *)
Definition Defined (defs : list (byte * bytes)) (c : byte) (x : bytes) : Prop :=
  (exists before after, defs = before ++ (c, x) :: after /\ forall y, ~ In (c, y) after)
  \/ ((forall y, ~ In (c, y) defs) /\ x = [c]).

(** ** The invocation shown to the pair *)

(** Words separated by single spaces. *)
Inductive Spaced : list bytes -> bytes -> Prop :=
| Spaced_one w : Spaced [w] w
| Spaced_more w ws line : Spaced ws line -> Spaced (w :: ws) (w ++ " "%byte :: line).

(** A flag that is shown when set, and one shown with its value. *)
Definition Shown (b : bool) (flag : string) (l : list bytes) : Prop :=
  (b = true /\ l = [B flag]) \/ (b = false /\ l = []).
Definition ShownWith (o : option bytes) (flag : string) (l : list bytes) : Prop :=
  (exists v, o = Some v /\ l = [B flag ++ " "%byte :: v]) \/ (o = None /\ l = []).

(** The words of the command line, in order: sixteen possible flags. *)
Definition InvocationWords (rq : request) (words : list bytes) : Prop :=
  exists f1 f2 f3 f4 f5 f6 f7 f8 f9 f10 f11 f12 f13 f14 f15 f16,
    words = [rq_progname rq]
            ++ (f1 ++ f2 ++ f3 ++ f4 ++ f5 ++ f6 ++ f7 ++ f8 ++ f9 ++ f10 ++ f11
                ++ f12 ++ f13 ++ f14 ++ f15 ++ f16)
            ++ rq_args rq
    /\ ((rq_progname rq <> B "sudoedit" /\ Shown (rq_f_sudoedit rq) "--edit" f1)
        \/ (rq_progname rq = B "sudoedit" /\ f1 = []))
    /\ ShownWith (rq_f_user rq) "--user" f2
    /\ ShownWith (rq_f_group rq) "--group" f3
    /\ ShownWith (rq_f_prompt rq) "--prompt" f4
    /\ Shown (rq_f_login rq) "--login" f5
    /\ Shown (rq_f_shell rq) "--shell" f6
    /\ Shown (rq_f_set_home rq) "--set-home" f7
    /\ Shown (rq_f_preserve_env rq) "--preserve-env" f8
    /\ Shown (rq_f_preserve_groups rq) "--preserve-groups" f9
    /\ Shown (rq_f_reset rq) "--reset-timestamp" f10
    /\ Shown (rq_f_noninteractive rq) "--non-interactive" f11
    /\ ShownWith (rq_f_class rq) "--login-class" f12
    /\ ShownWith (rq_f_role rq) "--role" f13
    /\ ShownWith (rq_f_type rq) "--type" f14
    /\ ShownWith (rq_f_auth rq) "--auth-type" f15
    /\ ((exists n t, rq_f_close_from rq = Some n /\ Decimal n t
                     /\ f16 = [B "--close-from" ++ " "%byte :: t])
        \/ (rq_f_close_from rq = None /\ f16 = [])).

Definition Invocation (rq : request) (line : bytes) : Prop :=
  exists words, InvocationWords rq words /\ Spaced words line.

(** The last name in a path, if it has one. *)
Definition FileName (p n : bytes) : Prop :=
  n <> [] /\ n <> B "." /\ n <> B ".." /\ ~ In "/"%byte n
  /\ (SamePath p n \/ exists d, SamePath p (d ++ "/"%byte :: n)).

(** What each directive of the prompt templates stands for. *)
Inductive Directive (rq : request) : byte -> bytes -> Prop :=
| D_b n : FileName (rq_binary_path rq) n -> Directive rq "b" n
| D_b' : (forall n, ~ FileName (rq_binary_path rq) n) -> Directive rq "b" (rq_binary_path rq)
| D_B : Directive rq "B" (rq_binary_path rq)
| D_C line : Invocation rq line -> Directive rq "C" line
| D_d d : rq_policy_cwd rq = Some d -> Directive rq "d" d
| D_d' : rq_policy_cwd rq = None -> Directive rq "d" (rq_user_cwd rq)
| D_h : Directive rq "h" (rq_host rq)
| D_H t : Decimal (rq_lines rq) t -> Directive rq "H" t
| D_g t : Decimal (rq_gid rq) t -> Directive rq "g" t
| D_p t : Decimal (rq_pid rq) t -> Directive rq "p" t
| D_u t : Decimal (rq_uid rq) t -> Directive rq "u" t
| D_U : Directive rq "U" (rq_user rq)
| D_W t : Decimal (rq_cols rq) t -> Directive rq "W" t
| D_other c : ~ In c (B "bBCdhHgpuUW") -> Directive rq c [c].
