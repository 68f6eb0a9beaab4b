(** Model of [<IpAddr as FromStr>::from_str] (library/std/src/net/parser.rs;
    not part of /repo, followed from memory), called at sudo_plugin/src/options/settings.rs:330-331. The parser's state is
    what is left of the text; a reader that fails leaves it as it was
    ([read_atomically]). [zeros]: Rust up to 1.52, the version of the
    Dockerfile, accepts leading zeros and any number of digits in the decimal
    numbers; later versions accept neither. *)
From Verif Require Import Base Num.
Local Open Scope Z_scope.

Definition reader (A : Type) := bytes -> option (A * bytes).

(** [char::to_digit] *)
Definition to_digit (radix : Z) (b : byte) : option Z :=
  let d := if (48 <=? bz b) && (bz b <=? 57) then Some (bz b - 48)
           else if (97 <=? bz b) && (bz b <=? 122) then Some (bz b - 97 + 10)
           else if (65 <=? bz b) && (bz b <=? 90) then Some (bz b - 65 + 10)
           else None in
  match d with Some x => if x <? radix then Some x else None | None => None end.

(** The loop of [read_number]: digits are read as long as there are any; an
    overflow of the type, whose largest value is [hi], or more than [max]
    digits are an error. [n] counts the digits read. *)
Fixpoint number_loop (radix hi : Z) (max : option nat) (n : nat) (acc : Z) (l : bytes)
  : option (Z * nat * bytes) :=
  match l with
  | [] => Some (acc, n, [])
  | b :: l' =>
      match to_digit radix b with
      | None => Some (acc, n, l)
      | Some d =>
          if hi <? acc * radix then None
          else if hi <? acc * radix + d then None
          else if match max with Some m => (m <? S n)%nat | None => false end then None
          else number_loop radix hi max (S n) (acc * radix + d) l'
      end
  end.

Definition read_number (radix hi : Z) (max : option nat) (zero_prefix : bool) : reader Z := fun l =>
  let leading := match l with b :: _ => byte_eqb b "0" | [] => false end in
  match number_loop radix hi max 0 0 l with
  | None => None
  | Some (z, n, rest) =>
      if (n =? 0)%nat then None
      else if negb zero_prefix && leading && (1 <? n)%nat then None
      else Some (z, rest)
  end.

(** [read_separator]: before every element but the first. *)
Definition read_sep {A} (sep : byte) (index : nat) (inner : reader A) : reader A := fun l =>
  match index with
  | O => inner l
  | S _ => match l with
           | b :: l' => if byte_eqb b sep then inner l' else None
           | [] => None
           end
  end.

(** [read_ipv4_addr] *)
Definition read_octet (zeros : bool) : reader Z :=
  if zeros then read_number 10 255 None true else read_number 10 255 (Some 3%nat) false.

Fixpoint read_octets (zeros : bool) (n i : nat) : reader (list Z) := fun l =>
  match n with
  | O => Some ([], l)
  | S n' =>
      match read_sep "."%byte i (read_octet zeros) l with
      | None => None
      | Some (z, l1) =>
          match read_octets zeros n' (S i) l1 with
          | None => None
          | Some (zs, l2) => Some (z :: zs, l2)
          end
      end
  end.

Definition read_ipv4 (zeros : bool) : reader (list Z) := read_octets zeros 4 0.

(** [read_groups]: at most [n] groups more, [i] of them read before. An IPv4
    address may stand for two groups; nothing comes after it. The result is
    the groups, and whether the last two were such an address. *)
Fixpoint read_groups (zeros : bool) (n i : nat) (l : bytes) : list Z * bool * bytes :=
  match n with
  | O => ([], false, l)
  | S n' =>
      let v4 := match n' with
                | O => None
                | S _ => read_sep ":"%byte i (read_ipv4 zeros) l
                end in
      match v4 with
      | Some ([a; b; c; d], l1) => ([a * 256 + b; c * 256 + d], true, l1)
      | _ =>
          match read_sep ":"%byte i (read_number 16 65535 (Some 4%nat) true) l with
          | None => ([], false, l)
          | Some (g, l1) => let '(gs, t, l2) := read_groups zeros n' (S i) l1 in (g :: gs, t, l2)
          end
      end
  end.

Definition read_char (c : byte) (l : bytes) : option bytes :=
  match l with b :: l' => if byte_eqb b c then Some l' else None | [] => None end.

(** [read_ipv6_addr] *)
Definition read_ipv6 (zeros : bool) : reader (list Z) := fun l =>
  let '(head, head4, l1) := read_groups zeros 8 0 l in
  if (List.length head =? 8)%nat then Some (head, l1)
  else if head4 then None
  else
    match read_char ":" l1 with
    | None => None
    | Some l2 =>
        match read_char ":" l2 with
        | None => None
        | Some l3 =>
            let '(tail, _, l4) := read_groups zeros (8 - (List.length head + 1)) 0 l3 in
            Some (head ++ repeat 0 (8 - List.length head - List.length tail) ++ tail, l4)
        end
    end.

(** [read_ip_addr] and [parse_with]: nothing may be left over. An IPv4 address
    is its four bytes, an IPv6 address its eight groups. *)
Definition parse_ip (zeros : bool) (s : bytes) : option (list Z) :=
  match (match read_ipv4 zeros s with Some r => Some r | None => read_ipv6 zeros s end) with
  | Some (a, []) => Some a
  | _ => None
  end.
