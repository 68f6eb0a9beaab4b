(** The textual forms of addresses. *)
From Verif Require Import Base Spec FieldSpec Options.
Local Open Scope Z_scope.

(** The digits of a number, most significant first, and their value. *)
Inductive HexDigit : byte -> Z -> Prop :=
| HD_dec b : 48 <= bz b <= 57 -> HexDigit b (bz b - 48)
| HD_lower b : 97 <= bz b <= 102 -> HexDigit b (bz b - 87)
| HD_upper b : 65 <= bz b <= 70 -> HexDigit b (bz b - 55).
Inductive InRadix (radix : Z) : bytes -> Z -> Prop :=
| DG_nil : InRadix radix [] 0
| DG_snoc s z b d : InRadix radix s z -> HexDigit b d -> d < radix -> InRadix radix (s ++ [b]) (z * radix + d).

(** A byte in decimal notation. With [zeros], leading zeros are allowed. *)
Definition Octet (zeros : bool) (s : bytes) (z : Z) : Prop :=
  s <> [] /\ InRadix 10 s z /\ z <= 255 /\ (zeros = true \/ s = B "0" \/ forall r, s <> "0"%byte :: r).

(** Sixteen bits in hexadecimal notation. *)
Definition Group (s : bytes) (z : Z) : Prop := s <> [] /\ (List.length s <= 4)%nat /\ InRadix 16 s z.

Inductive V4 (zeros : bool) : bytes -> list Z -> Prop :=
| V4_text sa sb sc sd a b c d : Octet zeros sa a -> Octet zeros sb b -> Octet zeros sc c -> Octet zeros sd d ->
    V4 zeros (sa ++ B "." ++ sb ++ B "." ++ sc ++ B "." ++ sd) [a; b; c; d].

(** Groups separated by colons; the last two may be written as an IPv4
    address, which is what [mixed] says. *)
Inductive Groups (zeros : bool) : bool -> bytes -> list Z -> Prop :=
| GR_one s g : Group s g -> Groups zeros false s [g]
| GR_v4 s a b c d : V4 zeros s [a; b; c; d] -> Groups zeros true s [a * 256 + b; c * 256 + d]
| GR_cons mixed s g r gs : Group s g -> Groups zeros mixed r gs -> Groups zeros mixed (s ++ B ":" ++ r) (g :: gs).

(** Eight groups, or fewer with "::" for a run of one zero or more. *)
Inductive V6 (zeros : bool) : bytes -> list Z -> Prop :=
| V6_full mixed s gs : Groups zeros mixed s gs -> List.length gs = 8%nat -> V6 zeros s gs
| V6_gap h hs mixed t ts k :
    (h = [] /\ hs = [] \/ Groups zeros false h hs) -> (t = [] /\ ts = [] \/ Groups zeros mixed t ts) ->
    (1 <= k)%nat -> (List.length hs + k + List.length ts = 8)%nat ->
    V6 zeros (h ++ B "::" ++ t) (hs ++ repeat 0 k ++ ts).

Definition Address (zeros : bool) (s : bytes) (l : list Z) : Prop := V4 zeros s l \/ V6 zeros s l.

(** An entry of network_addrs, and the whole setting. *)
Definition AddressWithMask (zeros : bool) (s : bytes) (n : net_addr) : Prop :=
  exists a m, s = a ++ B "/" ++ m /\ Address zeros a (na_addr n) /\ Address zeros m (na_mask n).

(** The network_addrs setting has an address without mask, with nothing but
    addresses with masks before it. *)
Definition BareAddress (zeros : bool) (r : raw) : Prop :=
  exists v before piece after l,
    Provides r (B "network_addrs") v /\ Utf8 v
    /\ Separated " "%byte v (before ++ piece :: after)
    /\ Forall (fun s => exists n, AddressWithMask zeros s n) before
    /\ Address zeros piece l.

(** A build with the standard library in question. *)
Definition Standard (zeros : bool) (p : bytes -> option (list Z)) : Prop :=
  forall s l, p s = Some l <-> Address zeros s l.
