(** Model of [str::from_utf8] (core library), used by
    sudo_plugin/src/options/option_map.rs:119-121 ([OptionMap::get_str]).

    The table of accepted byte ranges is the one in the Rust documentation and
    in core::str::validations::run_utf8_validation (RFC 3629): no overlong
    forms, no surrogates, nothing above U+10FFFF. *)
From Verif Require Import Base.
Local Open Scope Z_scope.

Definition in_range (lo hi : Z) (b : byte) : bool := (lo <=? bz b) && (bz b <=? hi).

(** A continuation byte, 0x80..0xBF. *)
Definition cont (b : byte) : bool := in_range 128 191 b.

(** Accepted second byte for a given first byte of a 3-byte sequence. *)
Definition ok3 (a b : byte) : bool :=
  (in_range 224 224 a && in_range 160 191 b)
  || (in_range 225 236 a && cont b)
  || (in_range 237 237 a && in_range 128 159 b)
  || (in_range 238 239 a && cont b).

(** Accepted second byte for a given first byte of a 4-byte sequence. *)
Definition ok4 (a b : byte) : bool :=
  (in_range 240 240 a && in_range 144 191 b)
  || (in_range 241 243 a && cont b)
  || (in_range 244 244 a && in_range 128 143 b).

Fixpoint valid_utf8 (l : bytes) : bool :=
  match l with
  | [] => true
  | a :: l1 =>
      if bz a <=? 127 then valid_utf8 l1
      else
        match l1 with
        | [] => false
        | b :: l2 =>
            if in_range 194 223 a then cont b && valid_utf8 l2
            else
              match l2 with
              | [] => false
              | c :: l3 =>
                  if in_range 224 239 a then ok3 a b && cont c && valid_utf8 l3
                  else
                    match l3 with
                    | [] => false
                    | d :: l4 => ok4 a b && cont c && cont d && valid_utf8 l4
                    end
              end
        end
  end.
