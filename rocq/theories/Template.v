(** Model of sudo_pair/src/template.rs. *)
From Verif Require Import Base.

(** template.rs:17 *)
Definition DEFAULT_ESCAPE_BYTE : byte := "%"%byte.

(** template.rs:19-22. [expansions : HashMap<u8, Vec<u8>>] is an association
    list, newest binding first. *)
Record spec := mkSpec { sp_escape : byte; sp_expansions : list (byte * bytes) }.

(** template.rs:25-27, 77-84 *)
Definition spec_new : spec := mkSpec DEFAULT_ESCAPE_BYTE [].

(** template.rs:29-31 *)
Definition spec_with_escape (e : byte) : spec := mkSpec e (sp_expansions spec_new).

(** template.rs:33-35 ([HashMap::insert]: replaces an existing binding) *)
Definition spec_replace (literal : byte) (replacement : bytes) (s : spec) : spec :=
  mkSpec (sp_escape s)
         ((literal, replacement)
            :: filter (fun kv => negb (byte_eqb (fst kv) literal)) (sp_expansions s)).

(** [HashMap::get] *)
Fixpoint exp_get (m : list (byte * bytes)) (k : byte) : option bytes :=
  match m with
  | [] => None
  | (k', v) :: m' => if byte_eqb k' k then Some v else exp_get m' k
  end.

(** [iter.by_ref().take_while(|b| *b != escape)]: the bytes copied, and what
    is left in the iterator -- the escape byte itself is consumed. *)
Definition take_while_ref (esc : byte) (l : bytes) : bytes * bytes :=
  let '(a, b) := span (fun x => byte_eqb x esc) l in
  (a, match b with [] => [] | _ :: b' => b' end).

(** template.rs:37-74, the [while] loop; [fuel] counts iterations. Each
    iteration that does not [break] consumes at least two bytes, so
    [S (length template)] iterations always suffice. *)
Fixpoint expand_loop (fuel : nat) (s : spec) (iter result : bytes) : bytes :=
  match fuel with
  | O => result
  | S f =>
      match iter with
      | [] => result                                     (* template.rs:43 *)
      | _ =>
          let '(lit, iter1) := take_while_ref (sp_escape s) iter in   (* 45-47 *)
          let result1 := result ++ lit in
          match iter1 with                               (* 59-62 *)
          | [] => result1
          | b :: iter2 =>
              let e := match exp_get (sp_expansions s) b with          (* 67-70 *)
                       | Some x => x
                       | None => [b]
                       end in
              expand_loop f s iter2 (result1 ++ e)
          end
      end
  end.

Definition expand (s : spec) (template : bytes) : bytes :=
  expand_loop (S (List.length template)) s template [].
