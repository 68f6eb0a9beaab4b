(** The unit tests that /repo has for the functions modelled here, replayed
    in the model. Each example is one [#[test]] of the code: the input of the
    test is given to the model's function and the asserted value is computed.

    The tests of sudo_plugin-sys/src/bindings are in LayoutTests.v. *)
From Verif Require Import Base Utf8 Num Options Template.
Local Open Scope Z_scope.

(** ** sudo_plugin/src/options/option_map.rs:144-278 *)

(** A C string literal [b"...\0"]. *)
Local Definition c (s : string) : bytes := B s ++ [NUL].

Local Definition given (l : list bytes) : optmap := from_raw (Some l).

Local Definition is_err {A E} (r : result A E) : bool :=
  match r with Ok _ => false | Err _ => true end.

(** option_map.rs:144-155 *)
Example new_parses_string_keys :
  let map := given [c "key1=value1"; c "key2=value2"] in
  get_str map (B "key1") = Some (B "value1") /\
  get_str map (B "key2") = Some (B "value2") /\
  get_str map (B "key3") = None.
Proof. vm_compute. repeat split. Qed.

(** option_map.rs:157-162 *)
Example new_parses_null_options : from_raw None = [].
Proof. reflexivity. Qed.

(** option_map.rs:164-172 *)
Example new_parses_non_utf8_keys :
  get_bytes (given [x80 :: c "=value"]) [x80] = Some (B "value").
Proof. vm_compute. reflexivity. Qed.

(** option_map.rs:174-183 *)
Example new_parses_non_utf8_values :
  let map := given [B "key=" ++ [x80; NUL]] in
  get_str map (B "key") = None /\
  get_bytes map (B "key") = Some [x80].
Proof. vm_compute. repeat split. Qed.

(** option_map.rs:185-195 *)
Example new_parses_repeated_keys :
  get_str (given [c "key=value1"; c "key=value2"; c "key=value3"]) (B "key")
  = Some (B "value3").
Proof. vm_compute. reflexivity. Qed.

(** option_map.rs:197-205 *)
Example new_parses_valueless_keys :
  get_str (given [c "key"]) (B "key") = Some (B "key").
Proof. vm_compute. reflexivity. Qed.

(** option_map.rs:207-216 *)
Example new_parses_values_with_the_separator :
  let map := given [c "key=value=value"] in
  get_str map (B "key") = Some (B "value=value") /\
  get_str map (B "key=value") = None.
Proof. vm_compute. repeat split. Qed.

(** option_map.rs:218-248 *)
Example get_parses_common_types :
  let map := given [c "str=value"; c "true"; c "false"; c "i64=-42"; c "u64=42";
                    c "path=/foo/bar"] in
  get parse_string map (B "str") = Ok (B "value") /\
  get parse_path map (B "path") = Ok (B "/foo/bar") /\
  get parse_bool map (B "true") = Ok true /\
  get parse_bool map (B "false") = Ok false /\
  is_err (get parse_bool map (B "str")) = true /\
  get (parse_int i8T) map (B "i64") = Ok (-42) /\
  get (parse_int i16T) map (B "i64") = Ok (-42) /\
  get (parse_int i32T) map (B "i64") = Ok (-42) /\
  get (parse_int i64T) map (B "i64") = Ok (-42) /\
  is_err (get (parse_int i64T) map (B "true")) = true /\
  get (parse_int u8T) map (B "u64") = Ok 42 /\
  get (parse_int u16T) map (B "u64") = Ok 42 /\
  get (parse_int u32T) map (B "u64") = Ok 42 /\
  get (parse_int u64T) map (B "u64") = Ok 42 /\
  is_err (get (parse_int u64T) map (B "i64")) = true.
Proof. vm_compute. repeat split. Qed.

(** option_map.rs:140-142: the tests give lists of strings the separator '|';
    only the tests have such lists. *)
Local Definition parse_strings : bytes -> option (list bytes) :=
  parse_list "|"%byte parse_string.

(** option_map.rs:250-262 *)
Example get_parses_lists :
  let map := given [c "ints=1,2,3"; c "strs=a|b|c"; c "str=a,b,c"] in
  get (parse_ints u8T) map (B "ints") = Ok [1; 2; 3] /\
  get parse_strings map (B "strs") = Ok [B "a"; B "b"; B "c"] /\
  get parse_strings map (B "str") = Ok [B "a,b,c"].
Proof. vm_compute. repeat split. Qed.

(** option_map.rs:264-278. A set is modelled by the list of its elements. *)
Example get_parses_hashsets :
  exists set,
    get parse_strings (given [c "nums=1|2|3"]) (B "nums") = Ok set /\
    map (fun s => existsb (bytes_eqb (B s)) set) ["1"; "2"; "3"; "4"]%string
    = [true; true; true; false].
Proof. eexists. split; vm_compute; reflexivity. Qed.

(** ** sudo_pair/src/template.rs:96-267 *)

(** template.rs:96-101 *)
Example new : sp_escape spec_new = DEFAULT_ESCAPE_BYTE.
Proof. reflexivity. Qed.

(** template.rs:103-108 *)
Example with_escape : sp_escape (spec_with_escape "\"%byte) = "\"%byte.
Proof. reflexivity. Qed.

(** template.rs:110-118. [Spec::from] (template.rs:86-90) is used by this test
    only; the model writes it out. *)
Example from_hashmap :
  let map := [("x"%byte, B "abc")] in
  sp_expansions (mkSpec (sp_escape spec_new) map) = map.
Proof. reflexivity. Qed.

Local Definition replacing (l : list (string * string)) : spec :=
  fold_left (fun s p => spec_replace (hd NUL (B (fst p))) (B (snd p)) s) l spec_new.

(** template.rs:120-129 *)
Example no_expansions :
  expand spec_new (B "this has no expansions") = B "this has no expansions".
Proof. vm_compute. reflexivity. Qed.

(** template.rs:131-143 *)
Example expansions :
  expand (replacing [("a", "foo"); ("b", "bar")]%string) (B "a: %a, b: %b")
  = B "a: foo, b: bar".
Proof. vm_compute. reflexivity. Qed.

(** template.rs:145-157 *)
Example repeated_expansions :
  expand (replacing [("a", "x"); ("b", "y")]%string) (B "%a%a%a%b%a%a%b")
  = B "xxxyxxy".
Proof. vm_compute. reflexivity. Qed.

(** template.rs:159-170 *)
Example expansion_inserts_itself :
  expand (replacing [("x", "x")]%string) (B "test %x test") = B "test x test".
Proof. vm_compute. reflexivity. Qed.

(** template.rs:172-184 *)
Example expansion_isnt_recursive :
  expand (replacing [("x", "%x %y %z % %%"); ("y", "BUG")]%string) (B "test %x test")
  = B "test %x %y %z % %% test".
Proof. vm_compute. reflexivity. Qed.

(** template.rs:186-197 *)
Example expansion_inserts_nothing :
  expand (replacing [("X", "")]%string) (B "test %X test") = B "test  test".
Proof. vm_compute. reflexivity. Qed.

(** template.rs:199-211 *)
Example unused_expansions :
  expand (replacing [("y", "qwerty"); ("n", "uiop[")]%string)
         (B "only y should be expanded %y")
  = B "only y should be expanded qwerty".
Proof. vm_compute. reflexivity. Qed.

(** template.rs:213-224 *)
Example literals :
  expand (replacing [("b", "bar")]%string) (B "a: %a, b: %b") = B "a: a, b: bar".
Proof. vm_compute. reflexivity. Qed.

(** template.rs:226-235 *)
Example literal_escape_character :
  expand spec_new (B "%%%%%%%%%%%%%%") = B "%%%%%%%".
Proof. vm_compute. reflexivity. Qed.

(** template.rs:237-251 *)
Example bug_wontfix_expand_escape_character :
  expand (replacing [("%", "x")]%string) (B "|%%|") = B "|x|".
Proof. vm_compute. reflexivity. Qed.

(** template.rs:253-267 *)
Example bug_wontfix_swallow_trailing_escape_character :
  expand spec_new (B "some text%") = B "some text".
Proof. vm_compute. reflexivity. Qed.
