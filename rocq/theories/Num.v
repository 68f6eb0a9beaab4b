(** Model of integer parsing and printing (core library) as used by
    sudo_plugin/src/options/traits.rs:37-100 ([FromSudoOption for i8..u64],
    all of which delegate to [FromStr]) and by [to_string]/[format!] in
    sudo_pair/src/lib.rs:231,563-569,648-663 and
    sudo_plugin/src/options/settings.rs:264. *)
From Verif Require Import Base.
Local Open Scope Z_scope.

(** An integer type: whether it is signed, and its inclusive range. *)
Record ity := mkIty { it_signed : bool; it_min : Z; it_max : Z }.

Definition i8T  := mkIty true  (-128) 127.
Definition u8T  := mkIty false 0 255.
Definition i16T := mkIty true  (-32768) 32767.
Definition u16T := mkIty false 0 65535.
Definition i32T := mkIty true  (-2147483648) 2147483647.
Definition u32T := mkIty false 0 4294967295.
Definition i64T := mkIty true  (-9223372036854775808) 9223372036854775807.
Definition u64T := mkIty false 0 18446744073709551615.

(** [(c as char).to_digit(10)]. *)
Definition digit (b : byte) : option Z :=
  if (48 <=? bz b) && (bz b <=? 57) then Some (bz b - 48) else None.

(** The positive-number loop of core::num::from_str_radix: [checked_mul]
    followed by [checked_add], failing at the first overflow. *)
Fixpoint parse_pos (hi acc : Z) (l : bytes) : option Z :=
  match l with
  | [] => Some acc
  | c :: l' =>
      match digit c with
      | None => None
      | Some d =>
          if hi <? acc * 10 then None
          else if hi <? acc * 10 + d then None
          else parse_pos hi (acc * 10 + d) l'
      end
  end.

(** The negative-number loop: [checked_mul] followed by [checked_sub]. *)
Fixpoint parse_neg (lo acc : Z) (l : bytes) : option Z :=
  match l with
  | [] => Some acc
  | c :: l' =>
      match digit c with
      | None => None
      | Some d =>
          if acc * 10 <? lo then None
          else if acc * 10 - d <? lo then None
          else parse_neg lo (acc * 10 - d) l'
      end
  end.

(** core::num::from_str_radix(src, 10): empty input and a lone sign are
    errors; a leading '+' is always accepted, a leading '-' only for signed
    types (for unsigned types it is then an invalid digit). *)
Definition parse_int (t : ity) (l : bytes) : option Z :=
  match l with
  | [] => None
  | c :: rest =>
      if (byte_eqb c "+" || byte_eqb c "-") && is_nil rest then None
      else if byte_eqb c "+" then parse_pos (it_max t) 0 rest
      else if byte_eqb c "-" && it_signed t then parse_neg (it_min t) 0 rest
      else parse_pos (it_max t) 0 l
  end.

(** [bool::from_str], used at sudo_plugin/src/options/traits.rs:29-35. *)
Definition parse_bool (l : bytes) : option bool :=
  if bytes_eqb l (B "true") then Some true
  else if bytes_eqb l (B "false") then Some false
  else None.

(** Decimal digits of a non-negative number, most significant first; [fuel]
    bounds the number of digits ([dec_fuel] below is always enough). *)
Fixpoint dec_digits (fuel : nat) (n : Z) (acc : bytes) : bytes :=
  match fuel with
  | O => acc
  | S f =>
      let acc' := zb (48 + n mod 10) :: acc in
      if n <? 10 then acc' else dec_digits f (n / 10) acc'
  end.

Definition dec_fuel (n : Z) : nat := S (Z.to_nat (Z.log2 n)).

(** [ToString::to_string] / ["{}"] for Rust integers. *)
Definition to_dec (z : Z) : bytes :=
  if z <? 0 then "-"%byte :: dec_digits (dec_fuel (- z)) (- z) []
  else dec_digits (dec_fuel z) z [].
