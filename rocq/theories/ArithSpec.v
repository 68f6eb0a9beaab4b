(** What an argument of the approval script means to bash. *)
From Verif Require Import Base Spec.
Local Open Scope Z_scope.

(** The number that the digits [l] stand for in the base [r]. *)
Inductive InRadix (r : Z) : bytes -> Z -> Prop :=
| R_none : InRadix r [] 0
| R_digit l v c : InRadix r l v -> IsDigit c -> bz c - 48 < r -> InRadix r (l ++ [c]) (r * v + (bz c - 48)).

(** A leading zero makes a numeral octal; the empty text is zero. *)
Inductive Unsigned : bytes -> Z -> Prop :=
| U_none : Unsigned [] 0
| U_octal l v : l <> [] -> InRadix 8 l v -> Unsigned ("0"%byte :: l) v
| U_decimal c l v : (c = "0"%byte -> l = []) -> InRadix 10 (c :: l) v -> Unsigned (c :: l) v.

(** [z] is [v] in 64 bits, two's complement. *)
Definition In64 (v z : Z) : Prop := - 2 ^ 63 <= z < 2 ^ 63 /\ exists k, z = v + k * 2 ^ 64.

Inductive Means : bytes -> Z -> Prop :=
| M_plain l v z : Unsigned l v -> In64 v z -> Means l z
| M_minus l v z : l <> [] -> Unsigned l v -> In64 (- v) z -> Means ("-"%byte :: l) z.

(** An element of an array, subscripted by the output of a command. *)
Definition Letter (b : byte) : Prop := 65 <= bz b <= 90 \/ 97 <= bz b <= 122 \/ b = "_"%byte.
Definition Runs (l cmd : bytes) : Prop :=
  exists name, l = name ++ B "[$(" ++ cmd ++ B ")]" /\ name <> [] /\ Forall Letter name
  /\ ~ In "("%byte cmd /\ ~ In ")"%byte cmd.
