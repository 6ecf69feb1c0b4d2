(** How an error is written: the name of the variant, and its argument in parentheses. *)
From Verif Require Import Base ErrorName SpecPrint.
Open Scope Z_scope.
Open Scope list_scope.

Definition hex : list Z := text "0123456789abcdef".
Inductive byte_escape : Z -> list Z -> Prop :=
| be_tab : byte_escape 9 (text "\t")
| be_return : byte_escape 13 (text "\r")
| be_newline : byte_escape 10 (text "\n")
| be_quote b : b = 39 \/ b = 34 \/ b = 92 -> byte_escape b [92; b]
| be_plain b : 32 <= b <= 126 -> b <> 39 -> b <> 34 -> b <> 92 -> byte_escape b [b]
| be_hex b high low h l : b < 32 \/ 126 < b -> b <> 9 -> b <> 13 -> b <> 10 -> b = 16 * Z.of_nat high + Z.of_nat low ->
    nth_error hex high = Some h -> nth_error hex low = Some l -> byte_escape b (text "\x" ++ [h; l]).
Inductive kind_text (other : nat -> list Z) : io_kind -> list Z -> Prop :=
| kt_eof : kind_text other UnexpectedEof (text "UnexpectedEof")
| kt_zero : kind_text other WriteZero (text "WriteZero")
| kt_interrupted : kind_text other Interrupted (text "Interrupted")
| kt_input : kind_text other InvalidInput (text "InvalidInput")
| kt_other n : kind_text other (OtherKind n) (other n).
Inductive error_says (other : nat -> list Z) : error -> list Z -> Prop :=
| es_number : error_says other InvalidNumber (text "InvalidNumber")
| es_string : error_says other InvalidString (text "InvalidString")
| es_binary n ds : numeral n ds -> error_says other (InvalidBinaryLen n) (text "InvalidBinaryLen(" ++ ds ++ text ")")
| es_collection : error_says other InvalidCollectionLen (text "InvalidCollectionLen")
| es_missing n es : Forall2 byte_escape (text n) es -> error_says other (MissingField n) (text "MissingField(""" ++ List.concat es ++ text """)")
| es_value : error_says other MissingValue (text "MissingValue")
| es_stop : error_says other MissingStop (text "MissingStop")
| es_duplicate : error_says other DuplicateField (text "DuplicateField")
| es_type : error_says other InvalidType (text "InvalidType")
| es_reserve : error_says other ReserveError (text "ReserveError")
| es_io k kt : kind_text other k kt -> error_says other (IO k) (text "IO(" ++ kt ++ text ")").
