(** Model of [std::path] on Unix, as used by sudo_pair/src/lib.rs:489-491
    (comparison of the command with [binary_path]), 563-570 ([join]), 725-729
    ([file_name]), sudo_pair/src/socket.rs:151 ([parent]) and
    sudo_plugin/src/core.rs:179 (comparison with the empty path). *)
From Verif Require Import Base.

Inductive component :=
| RootDir
| CurDir
| ParentDir
| Normal (s : bytes).

Definition slash : byte := "/"%byte.

(** One '/'-separated piece: empty pieces and "." vanish. *)
Definition seg_comp (s : bytes) : list component :=
  if bytes_eqb s [] then []
  else if bytes_eqb s (B ".") then []
  else if bytes_eqb s (B "..") then [ParentDir]
  else [Normal s].

(** [Path::components]: a leading '/' is [RootDir]; a leading "." piece of a
    relative path is kept as [CurDir]. *)
Definition components (p : bytes) : list component :=
  let segs := split_on slash p in
  (match p with
   | [] => []
   | c :: _ =>
       if byte_eqb c slash then [RootDir]
       else match segs with
            | s :: _ => if bytes_eqb s (B ".") then [CurDir] else []
            | [] => []
            end
   end) ++ flat_map seg_comp segs.

Definition component_eqb (a b : component) : bool :=
  match a, b with
  | RootDir, RootDir | CurDir, CurDir | ParentDir, ParentDir => true
  | Normal x, Normal y => bytes_eqb x y
  | _, _ => false
  end.

Fixpoint comps_eqb (a b : list component) : bool :=
  match a, b with
  | [], [] => true
  | x :: a', y :: b' => component_eqb x y && comps_eqb a' b'
  | _, _ => false
  end.

(** [impl PartialEq for PathBuf]: paths are compared component-wise. *)
Definition path_eqb (p q : bytes) : bool := comps_eqb (components p) (components q).

(** [PathBuf::join] ([push]): an absolute argument replaces the path; a
    separator is inserted unless the path is empty or already ends in one. *)
Definition path_join (d n : bytes) : bytes :=
  match n with
  | c :: _ => if byte_eqb c slash then n
              else match rev d with
                   | [] => n
                   | l :: _ => if byte_eqb l slash then d ++ n else d ++ slash :: n
                   end
  | [] => match rev d with
          | [] => []
          | l :: _ => if byte_eqb l slash then d else d ++ [slash]
          end
  end.

(** [Path::parent], at the level of components: [None] for the empty path and
    for a path that is just the root.  Simplification: the real function
    returns a sub-slice of the path; the model returns its components, and the
    kernel model below looks files up by components. *)
Definition path_parent (p : bytes) : option (list component) :=
  match rev (components p) with
  | [] => None
  | RootDir :: _ => None
  | _ :: r => Some (rev r)
  end.

(** [Path::file_name]. *)
Definition path_file_name (p : bytes) : option bytes :=
  match rev (components p) with
  | Normal s :: _ => Some s
  | _ => None
  end.
