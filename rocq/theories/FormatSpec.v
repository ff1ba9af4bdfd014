(** What formatting should produce, independently of Measure and Write: the
    text of a value, of a template and of a type name, as plain byte strings. *)
From Verif Require Import Base FormatModel StringSpec.
From Coq Require Import String.
Local Open Scope nat_scope.
Notation length := Datatypes.length.

(** Strings with a separator between them. *)
Fixpoint join (sep : list Z) (xs : list (list Z)) : list Z :=
  match xs with
  | [] => []
  | [x] => x
  | x :: xs' => x ++ sep ++ join sep xs'
  end.
Definition commas : list (list Z) -> list Z := join (txt ", ").

(** The same for a container that claims to have [n] elements: a separator
    after each of the first n - 1.  With exactly [n] elements this is [commas]
    (theorem format_map_commas). *)
Fixpoint commas_claiming (n : nat) (xs : list (list Z)) : list Z :=
  match xs with
  | [] => []
  | x :: xs' => x ++ (if 1 <? n then txt ", " else []) ++ commas_claiming (n - 1) xs'
  end.

(** [number x t]: [t] is the decimal text of [x] without superfluous zeros. *)
Definition number (x : Z) (t : list Z) : Prop :=
  match t with
  | 45%Z :: t' => exists n, decimal t' n /\ (0 < n)%Z /\ x = (- n)%Z /\ hd_error t' <> Some 48%Z
  | _ => decimal t x /\ (hd_error t = Some 48%Z -> t = [48%Z])
  end.

(** The text of a value. *)
Fixpoint text (v : fval) : list Z :=
  match v with
  | FVoid => txt "void"
  | FChar ch => [ch]
  | FInt _ x => dec_text x
  | FFloat t => t
  | FBool true => txt "true"
  | FBool false => txt "false"
  | FArray xs => txt "[" ++ commas (map text xs) ++ txt "]"
  | FPtr None => txt "(null)"
  | FPtr (Some t) => txt "(" ++ t ++ txt ")"
  | FRecord name fields =>
      name ++ txt "{" ++ commas (map (fun f => f.1 ++ txt " : " ++ text f.2) fields) ++ txt "}"
  | FEnum name members value =>
      name ++ txt "::" ++ List.concat (map fst (List.filter (fun m => (value =? m.2)%Z) members))
  | FView b | FString b => b
  | FSeq k xs =>
      txt match k with SVec => "Vec" | SSlice => "Slice" | SHeap => "Heap" | SQueue => "Queue" | SStack => "Stack" end
      ++ txt "[" ++ commas (map text xs) ++ txt "]"
  | FMap len items =>
      txt "Map[" ++ commas_claiming len (map (fun kv => txt "{" ++ text kv.1 ++ txt " : " ++ text kv.2 ++ txt "}") items) ++ txt "]"
  | FOpt None => txt "Opt{None}"
  | FOpt (Some x) => txt "Opt{" ++ text x ++ txt "}"
  | FBox None => txt "Box{null}"
  | FBox (Some x) => txt "Box{" ++ text x ++ txt "}"
  | FRef None => txt "Ref{null}"
  | FRef (Some x) => txt "Ref{" ++ text x ++ txt "}"
  | FRc _ None => txt "Rc{null}"
  | FRc n (Some x) => txt "Rc[" ++ dec_text n ++ txt "]{" ++ text x ++ txt "}"
  | FArc _ None => txt "Arc{null}"
  | FArc n (Some x) => txt "Arc[" ++ dec_text n ++ txt "]{" ++ text x ++ txt "}"
  | FPair l r => txt "Pair{" ++ text l ++ txt ", " ++ text r ++ txt "}"
  | FTuple xs => txt "Tuple{" ++ commas (map text xs) ++ txt "}"
  | FVariant x => txt "Variant{" ++ text x ++ txt "}"
  | FNamed name x => name ++ txt "{" ++ text x ++ txt "}"
  | FFunction ret args => txt "Function{" ++ ret ++ txt "(" ++ commas args ++ txt ")}"
  | FStorage name => txt "Storage<" ++ name ++ txt ">"
  | FVect k xs =>
      txt "Vec" ++ dec_text (Z.of_nat (length xs)) ++ txt match k with VectF => "" | VectI => "i" | VectU => "u" end
      ++ txt "{" ++ commas (map text xs) ++ txt "}"
  | FMat4 rows => txt "Mat4{" ++ commas (map (fun row => txt "{" ++ commas (map text row) ++ txt "}") rows) ++ txt "}"
  | FQuat x y z w => txt "Quat{" ++ commas [text x; text y; text z; text w] ++ txt "}"
  | FBBox x0 y0 z0 x1 y1 z1 =>
      txt "BBox{{" ++ commas [text x0; text y0; text z0] ++ txt "}, {" ++ commas [text x1; text y1; text z1] ++ txt "}}"
  end.

(** A template is a sequence of literal bytes and holes: "%%" is a literal
    percent sign, any other '%' a hole. *)
Inductive piece := Lit (b : Z) | Hole.
Inductive pieces : list Z -> list piece -> Prop :=
| pieces_nil : pieces [] []
| pieces_percent r ps : pieces r ps -> pieces (37 :: 37 :: r)%Z (Lit 37 :: ps)
| pieces_hole_end : pieces [37%Z] [Hole]
| pieces_hole b r ps : b <> 37%Z -> pieces (b :: r) ps -> pieces (37 :: b :: r)%Z (Hole :: ps)
| pieces_lit b r ps : b <> 37%Z -> pieces r ps -> pieces (b :: r) (Lit b :: ps).
Fixpoint holes (ps : list piece) : nat :=
  match ps with [] => 0 | Lit _ :: ps' => holes ps' | Hole :: ps' => S (holes ps') end.
(** The template with the holes replaced in order. *)
Fixpoint filled (ps : list piece) (args : list (list Z)) : list Z :=
  match ps, args with
  | Lit b :: ps', _ => b :: filled ps' args
  | Hole :: ps', a :: args' => a ++ filled ps' args'
  | _, _ => []
  end.

(** The name of a type. *)
Fixpoint type_text (t : type_desc) : list Z :=
  match t with
  | TPlain name => name
  | TConst t => txt "const " ++ type_text t
  | TVolatile t => txt "volatile " ++ type_text t
  | TConstVolatile t => txt "const volatile " ++ type_text t
  | TLref t => type_text t ++ txt "&"
  | TRref t => type_text t ++ txt "&&"
  | TPtr t => type_text t ++ txt "*"
  | TArr t n => type_text t ++ txt "[" ++ dec_text n ++ txt "]"
  | TApp name ts => name ++ txt "<" ++ commas (map type_text ts) ++ txt ">"
  | TSized name t n => name ++ txt "<" ++ type_text t ++ txt ", " ++ dec_text n ++ txt ">"
  | TFun ret ts => txt "Function<" ++ type_text ret ++ txt "(" ++ commas (map type_text ts) ++ txt ")>"
  end.
