(** A small schema with every feature, sample values and hand-made encodings, for
    the examples beside the property theorems. *)
From Verif Require Import Base Types SpecCompact Schema Typing.

Definition fld (id : Z) (req : bool) (t : ty) (name : string) : field :=
  {| f_id := id; f_req := req; f_ty := t; f_name := name |}.

(** struct Node { 1: required i32 key; 2: optional bool flag; 3: required list<Node> kids;
                  4: optional Shape shape; 7: optional string name; 16: optional list<bool> bits;
                  17: optional Color color; 18: optional Node next (boxed) }
    union Shape { 1: double radius; 2: Node node; 40: binary raw }
    enum Color *)
Definition sample_env : env := [
  ("Node"%string, DStruct [
     fld 1 true TI32 "key"; fld 2 false TBool "flag"; fld 3 true (TVec (TNamed "Node")) "kids";
     fld 4 false (TNamed "Shape") "shape"; fld 7 false TString "name"; fld 16 false (TVec TBool) "bits";
     fld 17 false (TNamed "Color") "color"; fld 18 false (TBox (TNamed "Node")) "next" ]);
  ("Shape"%string, DUnion [
     fld 1 true TDouble "radius"; fld 2 true (TNamed "Node") "node"; fld 40 true TBinary "raw" ]);
  ("Color"%string, DEnum)
].

Definition leaf (k : Z) : value :=
  VStruct [VI32 k; VNone; VVec []; VNone; VNone; VNone; VNone; VNone].
Definition sample_node : value :=
  VStruct [VI32 (-5); VSome (VBool true); VVec [leaf 7; leaf 300]; VSome (VUnion 2 (VBin [1; 2; 3]));
           VSome (VStr [195; 169]); VSome (VVec [VBool true; VBool false]); VSome (VI32 77);
           VSome (VBox (leaf (-1)))].
