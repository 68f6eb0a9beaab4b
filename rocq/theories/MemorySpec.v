(** What sudo promises about the memory behind the arguments it passes
    (sudo_plugin(8)), and which addresses these objects occupy. *)
From Verif Require Import Base Options Env Memory.
Local Open Scope Z_scope.

(** The [i]-th byte of the number [q]. *)
Definition byte_of (q : Z) (i : nat) : byte := zb ((q / 256 ^ Z.of_nat i) mod 256).

Section Word.
Variable word : nat.

(** The pointer [q] is stored at [p]. *)
Definition PointerAt (mem : memory) (p q : Z) : Prop :=
  p <> 0 /\ p mod Z.of_nat word = 0 /\ 0 <= q < 256 ^ Z.of_nat word
  /\ forall i, (i < word)%nat -> mem (p + Z.of_nat i) = Some (byte_of q i).

(** The string [s] is stored at [q], with the NUL that ends it. *)
Definition StringAt (mem : memory) (q : Z) (s : bytes) : Prop :=
  q <> 0 /\ ~ In x00 s
  /\ forall i b, nth_error (s ++ [x00]) i = Some b -> mem (q + Z.of_nat i) = Some b.

(** The [i]-th element of the array at [p] is the string [s], at [q]. *)
Definition EntryAt (mem : memory) (p : Z) (i : nat) (q : Z) (s : bytes) : Prop :=
  PointerAt mem (p + Z.of_nat word * Z.of_nat i) q /\ StringAt mem q s.

(** The array of strings [l] is stored at [p]; with [ends], a NULL pointer
    follows the last element. *)
Definition ArrayAt (mem : memory) (p : Z) (l : list bytes) : Prop :=
  p <> 0 /\ p mod Z.of_nat word = 0
  /\ forall i s, nth_error l i = Some s -> exists q, EntryAt mem p i q s.
Definition Terminated (mem : memory) (p : Z) (l : list bytes) : Prop :=
  ArrayAt mem p l /\ PointerAt mem (p + Z.of_nat word * Z.of_nat (List.length l)) 0.

(** The argument [p] stands for the array [r]: NULL for no array. *)
Definition Passed (mem : memory) (p : Z) (r : raw) : Prop :=
  match r with
  | None => p = 0
  | Some l => Terminated mem p l
  end.

(** The C arguments [c] stand for the arguments [a]. *)
Record Represents (mem : memory) (c : c_open_args) (a : open_args) : Prop := {
  rp_version : co_version c = oa_version a;
  rp_printf : co_printf c = oa_printf a;
  rp_settings : Passed mem (co_settings c) (oa_settings a);
  rp_user_info : Passed mem (co_user_info c) (oa_user_info a);
  rp_command_info : Passed mem (co_command_info c) (oa_command_info a);
  rp_argc : co_argc c = Z.of_nat (List.length (oa_argv a));
  rp_argv : ArrayAt mem (co_argv c) (oa_argv a);
  rp_user_env : Passed mem (co_user_env c) (oa_user_env a);
  rp_plugin_options : Passed mem (co_plugin_options c) (oa_plugin_options a)
}.

(** The addresses of the first [n] elements of the array at [p], and of the
    strings of [l]. *)
Definition InSlots (p : Z) (n : nat) (x : Z) : Prop := p <= x < p + Z.of_nat word * Z.of_nat n.
Definition InStrings (mem : memory) (p : Z) (l : list bytes) (x : Z) : Prop :=
  exists i q s, nth_error l i = Some s /\ EntryAt mem p i q s /\ q <= x <= q + Z.of_nat (List.length s).

Definition InPassed (mem : memory) (p : Z) (r : raw) (x : Z) : Prop :=
  match r with
  | None => False
  | Some l => InSlots p (S (List.length l)) x \/ InStrings mem p l x
  end.

(** The address belongs to one of the objects passed. *)
Definition InArguments (mem : memory) (c : c_open_args) (a : open_args) (x : Z) : Prop :=
  InPassed mem (co_settings c) (oa_settings a) x \/ InPassed mem (co_user_info c) (oa_user_info a) x
  \/ InPassed mem (co_command_info c) (oa_command_info a) x
  \/ (InSlots (co_argv c) (List.length (oa_argv a)) x \/ InStrings mem (co_argv c) (oa_argv a) x)
  \/ InPassed mem (co_user_env c) (oa_user_env a) x
  \/ InPassed mem (co_plugin_options c) (oa_plugin_options a) x.
End Word.
