(** The first ten characters that ls -l prints for a file, as in the listing of
    README.md:232-237. Set-user-id and sticky bits are left out. *)
From Verif Require Import Base World.
Local Open Scope Z_scope.

Definition kind_char (kd : kind) : byte :=
  match kd with KReg => "-" | KDir => "d" | KSock => "s" | KFifo => "p" | KChr => "c" | KBlk => "b" | KLink _ => "l" end%byte.
Definition ls_mode (i : inode) : bytes :=
  kind_char (i_kind i)
  :: map (fun bc : Z * byte => if Z.testbit (i_perm i) (fst bc) then snd bc else "-"%byte)
       [(8, "r"); (7, "w"); (6, "x"); (5, "r"); (4, "w"); (3, "x"); (2, "r"); (1, "w"); (0, "x")]%byte.
