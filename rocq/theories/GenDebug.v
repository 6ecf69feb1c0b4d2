(** What the [Debug] implementation of an enum printed by Generator.kt writes. *)
From Verif Require Import Base ErrorName SchemaPrint Generator Debug GenText.
Open Scope Z_scope.
Open Scope list_scope.

(** Generator.kt:178-180, [__NAMES] *)
Definition names_table (fields : list (string * Z)) : list (Z * string) := map (fun c => (snd c, fst c)) (sorted_by snd fields).
(** Generator.kt:196-206.  [search]: [binary_search_by_key] of the keys, left open as its choice among equal
    keys is not specified; [inl i]: [Ok(i)], [inr i]: [Err(i)]. *)
Definition debug_name (search : list Z -> Z -> nat + nat) (fields : list (string * Z)) (v : Z) : option string :=
  match search (map fst (names_table fields)) v with
  | inl i => option_map snd (nth_error (names_table fields) i)
  | inr _ => Some "__UNKNOWN"%string
  end.
(** [None]: the index is out of bounds *)
Definition enum_debug (search : list Z -> Z -> nat + nat) (alt : bool) (fields : list (string * Z)) (v : Z) : option (list Z) :=
  option_map (fun n => debug_tuple alt n (signed v)) (debug_name search fields v).
