(** How a shell reads a line that is typed or pasted: the part of POSIX,
    Shell Command Language 2.2 and 2.3, needed for the instructions of the
    prompts (sample/etc/sudo_pair.prompt.user:5, sudo_pair/src/lib.rs:96). *)
From Verif Require Import Base.
Local Open Scope Z_scope.

(** Characters with a meaning to the shell, apart from blanks and quotes. *)
Definition special (b : byte) : bool :=
  existsb (byte_eqb b) (B "|&;<>()$`\*?[#~=%{}!" ++ [x22; x0a; x0d; x00]).
Definition blank (b : byte) : bool := byte_eqb b x20 || byte_eqb b x09.

(** The words of a line. [cur] is the word being read, if one has begun.
    [None]: a special character is met, or a quotation is not ended. *)
Fixpoint words (quoted : bool) (cur : option bytes) (line : bytes) : option (list bytes) :=
  match line with
  | [] => if quoted then None else Some (match cur with Some w => [w] | None => [] end)
  | b :: rest =>
      let more := match cur with Some w => w ++ [b] | None => [b] end in
      if quoted then
        if byte_eqb b x27 then words false cur rest else words true (Some more) rest
      else if byte_eqb b x27 then words true (Some (match cur with Some w => w | None => [] end)) rest
      else if blank b then
        match cur with
        | Some w => option_map (cons w) (words false None rest)
        | None => words false None rest
        end
      else if special b then None
      else words false (Some more) rest
  end.
Definition shell_words (line : bytes) : option (list bytes) := words false None line.

(** Characters that stand for themselves. *)
Definition plain (b : byte) : Prop := byte_eqb b x27 = false /\ blank b = false /\ special b = false.
