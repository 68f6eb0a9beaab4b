(** Property theorems about the structures shared with sudo: C96. *)
From Coq Require Import Lia.
From Verif Require Import Base Path Version Options World Env Core Pair Frontend Layout LayoutFacts Samples.
Local Open Scope Z_scope.

(** *** C96: the table in memory *)

(** sudo looks for a field where its own header puts it. [old] is the
    declaration sudo was compiled with: that of sudo_plugin.h, or an older one
    that had only the first of these fields. *)
Theorem C96_found : forall h b a old more f t v img, In (h, b) structures -> h = old ++ more -> In (f, t) old ->
  List.length img = sizeof a b -> 0 <= v (rust_name f) < 256 ^ Z.of_nat (size_of a t) ->
  get_field a old f (initialised a b v img) = Some (v (rust_name f)).
Proof. exact found. Qed.
Print Assumptions C96_found.

(** The exported table: nine functions, and NULL in the other places. *)
Theorem C96_table : forall P pl a A old more f t img, h_io_plugin = old ++ more -> In (f, t) old ->
  List.length img = sizeof a b_io_plugin -> (forall g, 0 < A g < 256 ^ Z.of_nat (size_of a Pointer)) ->
  get_field a old f (table_bytes a A (exported P pl) img)
  = Some (if (f =? "type")%string then 2 else if (f =? "version")%string then 65553
          else if in_dec String.string_dec f
                    ["open"; "close"; "show_version"; "log_ttyin"; "log_ttyout"; "log_stdin"; "log_stdout"; "log_stderr";
                     "change_winsize"]%string
               then A f else 0).
Proof. exact table_found. Qed.
Print Assumptions C96_table.

(** What sudo stores into a field (macros.rs:87-88: event_alloc) is what the
    library finds there; the other fields, and what lies beyond the structure,
    are left alone. *)
Theorem C96_written : forall h b a f t z img, In (h, b) structures -> In (f, t) h -> List.length img = sizeof a b ->
  0 <= z < 256 ^ Z.of_nat (size_of a t) ->
  let img' := set_field a h f z img in
  List.length img' = sizeof a b
  /\ get_field a b (rust_name f) img' = Some z
  /\ forall g, In g (map fst b) -> g <> rust_name f -> get_field a b g img' = get_field a b g img.
Proof. exact written. Qed.
Print Assumptions C96_written.

(** Both sides agree on the size and on the alignment, and no field of an
    aligned structure is misaligned. *)
Theorem C96_size : forall h b a, In (h, b) structures -> sizeof a h = sizeof a b /\ align_of a h = align_of a b.
Proof. exact same_size. Qed.
Print Assumptions C96_size.

Theorem C96_aligned : forall a s f o t base, place a 0 s f = Some (o, t) -> (base mod align_of a s = 0)%nat ->
  ((base + o) mod size_of a t = 0)%nat.
Proof. exact aligned. Qed.
Print Assumptions C96_aligned.

(** A sudo before 1.8.21 knows no change_winsize (sudo_pair/CHANGELOG.md:13-14)
    and nothing behind it. It finds log_stderr; a newer one finds change_winsize as well. *)
Definition before_winsize : structure := firstn 12 h_io_plugin.
Definition somewhere (f : string) : Z := 4198400 + 16 * (Z.of_nat (String.length f) mod 64).
Definition gap : byte := xa5.
Example C96_example :
  h_io_plugin = before_winsize ++ skipn 12 h_io_plugin
  /\ (forall a g, 0 < somewhere g < 256 ^ Z.of_nat (size_of a Pointer))
  /\ forall a, In a [X86; X86_64; Aarch64] ->
     let img := table_bytes a somewhere (exported SudoPair release) (repeat gap (sizeof a b_io_plugin)) in
     get_field a before_winsize "log_stderr" img = Some 4198560
     /\ get_field a before_winsize "change_winsize" img = None
     /\ get_field a h_io_plugin "change_winsize" img = Some 4198624
     /\ get_field a h_io_plugin "event_alloc" img = Some 0
     /\ get_field a h_io_plugin "event_alloc" (set_field a h_io_plugin "event_alloc" 6295552 img) = Some 6295552.
Proof.
  split; [reflexivity|]. split.
  - intros a g. unfold somewhere. pose proof (Z.mod_pos_bound (Z.of_nat (String.length g)) 64 ltac:(lia)).
    assert (L : 256 ^ 4 <= 256 ^ Z.of_nat (size_of a Pointer)) by (destruct a; vm_compute; discriminate).
    change (256 ^ 4) with 4294967296 in L. lia.
  - intros a HI. destruct HI as [<-|[<-|[<-|[]]]]; vm_compute; repeat split.
Qed.

(** The structure whose first field is followed by a gap on 64 bits. *)
Example C96_gap : initialised X86_64 b_sudoers_group_plugin (fun f => if (f =? "version")%string then 65536 else 1) (repeat gap 32)
  = [x00; x00; x01; x00; gap; gap; gap; gap;
     x01; x00; x00; x00; x00; x00; x00; x00; x01; x00; x00; x00; x00; x00; x00; x00; x01; x00; x00; x00; x00; x00; x00; x00].
Proof. vm_compute. reflexivity. Qed.
