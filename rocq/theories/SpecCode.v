(** How the statements of RustCode.v are written, line by line, by the generator; the fields of a
    macro and of a document that correspond to each other.  No meaning is attached here. *)
From Verif Require Import Base ErrorName Types Generator SpecGenText RustCode.
Open Scope Z_scope.
Open Scope list_scope.

(** A field or variant of the document and of the macro; the types are not compared. *)
Definition same_field (g : gfield) (f : field) : Prop := g_id g = f_id f /\ g_name g = f_name f /\ (g_req g = REQUIRED <-> f_req f = true).
Definition same_variant (g : gfield) (f : field) : Prop := g_id g = f_id f /\ g_name g = f_name f.

Section Written.
  (** How numbers are written. *)
  Variable num : Z -> list Z.
  (** The flag of a field named [type] is called [r#type_set_]. *)
  Definition local_text (x : local) : list Z := (if String.eqb (snd x) "type_set_" then text "r#" else []) ++ text (snd x).
  Definition call_text (k : call) : list Z :=
    match k with
    | ReadHeader x => text "input.read_field_header(&mut " ++ local_text x ++ text ")"
    | SkipField x => text "input.skip_field(" ++ local_text x ++ text ")"
    | ReadByte => text "input.read_byte()"
    | ReadI32 => text "input.read_i32()"
    | FillField f x => text "self." ++ escaped f ++ text ".fill_field(input, " ++ local_text x ++ text ")"
    | FillInner => text "inner.fill(input)"
    | WriteByte b => text "output.write_byte(" ++ num b ++ text ")"
    | WriteI32 => text "output.write_i32(self.0)"
    | WriteField f id x => text "self." ++ escaped f ++ text ".write_field(output, " ++ num id ++ text ", &mut " ++ local_text x ++ text ")"
    | WriteInner id x => text "inner.write_field(output, " ++ num id ++ text ", &mut " ++ local_text x ++ text ")"
    end.
  Definition error_text (e : error) : list Z :=
    match e with
    | MissingField n => text "ThriftError::MissingField(c""" ++ text n ++ text """.into())"
    | InvalidType => text "ThriftError::InvalidType"
    | MissingStop => text "ThriftError::MissingStop"
    | _ => []
    end.
  Definition cond_text (b : cond) : list Z :=
    match b with
    | IsZero x => local_text x ++ text " == 0"
    | NotZero x => local_text x ++ text " != 0"
    | NotSet x => text "!" ++ local_text x
    end.
  Fixpoint stmt_lines (t : stmt) : list (list Z) :=
    let block := fix block (ts : list stmt) : list (list Z) := match ts with [] => [] | t' :: ts' => stmt_lines t' ++ block ts' end in
    match t with
    | Let x (Num z) => [text "let mut " ++ local_text x ++ text " = " ++ num z ++ text "_i16;"]
    | Let x (Flag b) => [text "let mut " ++ local_text x ++ text ": bool = " ++ text (if b then "true" else "false") ++ text ";"]
    | Let x (Result k) => [text "let " ++ local_text x ++ text " = " ++ call_text k ++ text "?;"]
    | SetFlag x => [local_text x ++ text " = true;"]
    | SetSelf k => [text "self.0 = " ++ call_text k ++ text "?;"]
    | Do k => [call_text k ++ text "?;"]
    | Loop body => [text "loop {"] ++ block body ++ [text "}"]
    | If b body => [text "if " ++ cond_text b ++ text " {"] ++ block body ++ [text "}"]
    | Break => [text "break;"]
    | ReturnErr e semicolon => [text "return Err(" ++ error_text e ++ text ")" ++ (if semicolon then text ";" else [])]
    | Match x arms other =>
        [text "match " ++ local_text x ++ text " {"] ++
        (fix arms_lines (arms : list (Z * list stmt)) : list (list Z) :=
           match arms with
           | [] => []
           | (y, body) :: arms' => [num y ++ text " => {"] ++ block body ++ [text "}"] ++ arms_lines arms'
           end) arms ++
        [text "_ => {"] ++ block other ++ [text "}"; text "}"]
    | SetVariant n => [text "*self = Self::" ++ text n ++ text "(Default::default());"]
    | MatchSelf arms rest =>
        (if rest then [text "#[allow(unreachable_patterns)]"] else []) ++
        [text "match self {"] ++
        map (fun '(n, k) => text "Self::" ++ text n ++ text "(inner) => " ++ call_text k ++ text "?,") arms ++
        (if rest then [text "_ => unsafe { std::hint::unreachable_unchecked() },"] else []) ++
        [text "}"]
    | Finish => [text "Ok(())"]
    | Tail k => [call_text k]
    end.
  Definition body_lines (ts : list stmt) : list (list Z) := flat_map stmt_lines ts.
End Written.

Definition fill_line : list Z := text "fn fill<T: CompactThriftInput<'i>>(&mut self, input: &mut T) -> Result<(), ThriftError> {".
Definition write_line : list Z := text "fn write<T: CompactThriftOutput>(&self, output: &mut T) -> Result<(), ThriftError> {".
