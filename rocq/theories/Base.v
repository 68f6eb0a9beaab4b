(** Base vocabulary shared by the model: bytes, results, panics.

    Nothing in this file models a function of /repo; it fixes the data
    representation used by every other file. *)
From Coq Require Export List Bool Arith NArith ZArith Lia String.
From Coq.Strings Require Export Byte.
Export ListNotations.

(** A Rust [u8] is a Coq [byte] (exactly 256 values); [&[u8]], [Vec<u8>],
    [&str], [String], [CString], [OsStr] and the bytes of a [PathBuf] are all
    lists of bytes. *)
Definition bytes := list byte.

(** Byte-string literals: [B "uid"] is Rust's [b"uid"]. *)
Definition B (s : string) : bytes := list_byte_of_string s.

(** The numeric value of a byte. *)
Definition bz (b : byte) : Z := Z.of_N (Byte.to_N b).

(** The byte with a given value; only ever applied to values in 0..255. *)
Definition zb (z : Z) : byte :=
  match Byte.of_N (Z.to_N z) with Some b => b | None => x00 end.

Definition byte_eqb (a b : byte) : bool := Byte.eqb a b.

Fixpoint bytes_eqb (a b : bytes) : bool :=
  match a, b with
  | [], [] => true
  | x :: a', y :: b' => byte_eqb x y && bytes_eqb a' b'
  | _, _ => false
  end.

(** Rust's [Result<A, E>]. *)
Inductive result (A E : Type) : Type :=
| Ok (a : A)
| Err (e : E).
Arguments Ok {A E} a.
Arguments Err {A E} e.

(** A pure Rust computation that may panic: [None] is the panic. *)
Definition panics (A : Type) := option A.

(** [Result::ok], [Result::unwrap_or]. *)
Definition res_ok {A E} (r : result A E) : option A :=
  match r with Ok a => Some a | Err _ => None end.
Definition unwrap_or {A E} (r : result A E) (d : A) : A :=
  match r with Ok a => a | Err _ => d end.

(** Position-free "everything before / after the first byte satisfying [p]":
    [span p l = (a, b)] with [l = a ++ b], no byte of [a] satisfying [p], and
    [b] empty or starting with a byte satisfying [p]. *)
Fixpoint span (p : byte -> bool) (l : bytes) : bytes * bytes :=
  match l with
  | [] => ([], [])
  | x :: l' =>
      if p x then ([], l)
      else let '(a, b) := span p l' in (x :: a, b)
  end.

(** Rust's [slice::split] / [str::split] on a one-byte separator: always at
    least one piece, adjacent separators give empty pieces. *)
Fixpoint split_on (sep : byte) (l : bytes) : list bytes :=
  match l with
  | [] => [[]]
  | x :: l' =>
      if byte_eqb x sep then [] :: split_on sep l'
      else match split_on sep l' with
           | [] => [[x]]
           | s :: r => (x :: s) :: r
           end
  end.

(** Rust's [[Vec<u8>]::join(&sep)]. *)
Fixpoint join_with (sep : bytes) (l : list bytes) : bytes :=
  match l with
  | [] => []
  | [x] => x
  | x :: r => x ++ sep ++ join_with sep r
  end.

Definition is_nil {A} (l : list A) : bool := match l with [] => true | _ => false end.
