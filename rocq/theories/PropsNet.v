(** Properties of the addresses sudo hands over. *)
From Verif Require Import Base Num Version Options World Sys Io Env Core Pair Spec FieldSpec.
From Verif Require Import OptionProofs ReadProofs VersionProofs Samples Worlds PropsInit Net NetSpec NetFacts.
Local Open Scope Z_scope.

(** *** C101: addresses *)
(** The parser accepts exactly the textual forms of addresses. *)
Theorem C101_addresses : forall zeros s l, parse_ip zeros s = Some l <-> Address zeros s l.
Proof. exact parse_ip_iff. Qed.
Print Assumptions C101_addresses.

(** The notation of sudo, which is the usual one, is understood by every
    version of the library. *)
Theorem C101_dotted : forall zeros a b c d sa sb sc sd,
  0 <= a <= 255 -> 0 <= b <= 255 -> 0 <= c <= 255 -> 0 <= d <= 255 ->
  Decimal a sa -> Decimal b sb -> Decimal c sc -> Decimal d sd ->
  parse_ip zeros (sa ++ B "." ++ sb ++ B "." ++ sc ++ B "." ++ sd) = Some [a; b; c; d].
Proof. exact dotted. Qed.
Print Assumptions C101_dotted.

(** What a later version accepts means the same to an earlier one. *)
Theorem C101_versions : forall s l, parse_ip false s = Some l -> parse_ip true s = Some l.
Proof. exact parse_ip_mono. Qed.
Print Assumptions C101_versions.

(** The setting is the list of its addresses and masks, and nothing if any of
    them is not written like one. *)
Theorem C101_read : forall zeros pl, Standard zeros (pl_parse_ip pl) ->
  forall name vers a e, io_env_new pl name vers a = Some (Ok e) ->
  ReadsOr (oa_settings a) "network_addrs" (ListOf " "%byte (AddressWithMask zeros)) [] (se_network_addrs (en_settings e))
  /\ forall ns, Reads (oa_settings a) "network_addrs" (ListOf " "%byte (AddressWithMask zeros)) ns ->
       se_network_addrs (en_settings e) = ns.
Proof. exact network_read. Qed.
Print Assumptions C101_read.

(** An address without a mask makes the opening fail without a word, and
    nothing else in this setting does. *)
Theorem C101_bare_aborts : forall zeros pl, Standard zeros (pl_parse_ip pl) ->
  forall a w, ApiAtLeast_1_9 (oa_version a) -> SettingsComplete (oa_settings a) -> BareAddress zeros (oa_settings a) ->
  core_open SudoPair pl a (pstate0 _) w = (Done (-1, pstate0 _), w).
Proof. exact bare_aborts. Qed.
Print Assumptions C101_bare_aborts.

Theorem C101_others_open : forall zeros pl, Standard zeros (pl_parse_ip pl) ->
  forall a, ApiAtLeast_1_9 (oa_version a) -> SettingsComplete (oa_settings a) ->
  UserInfoComplete (oa_user_info a) -> ~ BareAddress zeros (oa_settings a) ->
  (exists rq, Describes pl a rq)
  /\ forall w z st' w', core_open SudoPair pl a (pstate0 _) w = (Done (z, st'), w') -> st_env st' <> None.
Proof. exact not_bare_opens. Qed.
Print Assumptions C101_others_open.

(** A release build with the library of the Dockerfile, and a later one. *)
Definition std (zeros : bool) : platform := mkPlatform false 0 0 (parse_ip zeros).
Definition with_addrs (v : bytes) : open_args := with_settings (settings0 ++ [B "runas_user=root"; B "network_addrs=" ++ v]).
Definition addrs_read (zeros : bool) (v : bytes) : option (list net_addr) :=
  match io_env_new (std zeros) (B "n") (B "v") (with_addrs v) with
  | Some (Ok e) => Some (se_network_addrs (en_settings e))
  | _ => None
  end.

Example C101_example :
  Standard false (pl_parse_ip (std false)) /\ Standard true (pl_parse_ip (std true))
  /\ addrs_read false (B "192.168.1.7/255.255.255.0 fe80::1/ffff:ffff:ffff:ffff::")
     = Some [mkNetAddr [192; 168; 1; 7] [255; 255; 255; 0];
             mkNetAddr [65152; 0; 0; 0; 0; 0; 0; 1] [65535; 65535; 65535; 65535; 0; 0; 0; 0]]
  (* IPv4 inside IPv6; a malformed entry hides the others; leading zeros *)
  /\ addrs_read false (B "::ffff:10.0.0.1/::") = Some [mkNetAddr [0; 0; 0; 0; 0; 65535; 2560; 1] [0; 0; 0; 0; 0; 0; 0; 0]]
  /\ addrs_read false (B "192.168.1.7/255.255.255.0 192.168.1.256/255.255.255.0") = Some []
  /\ addrs_read false (B "010.0.0.1/255.0.0.0") = Some []
  /\ addrs_read true (B "010.0.0.1/255.0.0.0") = Some [mkNetAddr [10; 0; 0; 1] [255; 0; 0; 0]].
Proof.
  split; [apply parse_ip_standard|]. split; [apply parse_ip_standard|].
  split; [vm_compute; reflexivity|]. split; [vm_compute; reflexivity|]. split; [vm_compute; reflexivity|].
  split; [vm_compute; reflexivity|]. vm_compute. reflexivity.
Qed.

(** A prefix length is not a mask, and is harmless; no mask at all is not. *)
Example C101_bare_example :
  let bare := with_addrs (B "10.0.0.1/255.0.0.0 ::1") in
  let prefix := with_addrs (B "10.0.0.1/8 ::1") in
  ApiAtLeast_1_9 (oa_version bare) /\ SettingsComplete (oa_settings bare) /\ BareAddress false (oa_settings bare)
  /\ ApiAtLeast_1_9 (oa_version prefix) /\ SettingsComplete (oa_settings prefix)
  /\ UserInfoComplete (oa_user_info prefix) /\ ~ BareAddress false (oa_settings prefix)
  /\ code (core_open SudoPair (std false) prefix (pstate0 _) yes_world) = Some 1.
Proof.
  cbv zeta. split; [apply supported_iff; vm_compute; reflexivity|].
  split; [eapply complete_of; vm_compute; reflexivity|].
  split. { apply (bare_iff false (std false) (parse_ip_standard false)). apply get_net_addrs_None. vm_compute. reflexivity. }
  split; [apply supported_iff; vm_compute; reflexivity|].
  split; [eapply complete_of; vm_compute; reflexivity|]. split; [exact to_root_user_info|].
  split. { intros C. apply (bare_iff false (std false) (parse_ip_standard false)) in C. apply get_net_addrs_None in C.
           vm_compute in C. discriminate. }
  vm_compute. reflexivity.
Qed.
