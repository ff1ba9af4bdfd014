(** Properties of format, concat and format_typename. *)
From Verif Require Import Base Word MathModel StringModel StringSpec StringProofs StringProps FormatModel FormatSpec FormatProofs.
From Coq Require Import Ascii String.
Local Open Scope nat_scope.
Notation length := Datatypes.length.

(** ** C25: Measure and Write agree *)
(** For one value: Measure gives the length of the value's text; writing at
    the end of what is already written, into a buffer with that much room,
    stays inside the buffer, stores exactly that text and answers the next
    index. *)
Theorem value_written_as_measured : forall v before room,
  length room = measure v -> (Z.of_nat (length before + length room) < 2 ^ 64)%Z ->
  length (text v) = measure v /\
  write_val v (mk_str ((Some <$> before) ++ room) (length before + length room), Z.of_nat (length before))
  = Ok (mk_str (Some <$> (before ++ text v)) (length before + length room), Z.of_nat (length before + measure v)).
Proof.
  intros v before room L B. destruct (write_measured v) as [W M]. split; [done|].
  specialize (W before room). unfold part in W at 1. rewrite W by lia.
  unfold part. rewrite drop_ge by lia. cbn [length]. rewrite !app_length, M, L, Nat.add_0_r.
  by rewrite app_nil_r.
Qed.

(** Whole calls: the result has exactly the measured length and no unwritten byte. *)
Theorem format_length_exact : forall fmt args s,
  format fmt args = Ok s -> (Z.of_nat (length fmt + length (List.concat (map text args))) < 2 ^ 64)%Z ->
  format_length fmt args = Ok (slen s) /\ scap s = slen s /\
  exists v, str_view s = Ok v /\ length v = slen s.
Proof.
  intros fmt args s E B. destruct (pieces_exist fmt) as [ps H].
  destruct (decide (holes ps = length args)) as [HZ|HZ].
  - rewrite (format_eq _ _ _ H HZ) in E.
    + injection E as <-. cbn [slen]. rewrite (format_length_eq _ _ _ H HZ).
      unfold scap. cbn [sdata]. rewrite fmap_length. split_and!; [done..|]. eexists. by rewrite str_view_full.
    + rewrite filled_length by (by rewrite map_length).
      assert (lits ps <= length fmt). { clear -H. induction H; unfold lits in *; cbn in *; lia. }
      lia.
  - rewrite (format_mismatch _ _ _ H HZ) in E by lia. done.
Qed.
(** ... and no call leaves the buffer or loops. *)
Theorem format_safe : forall fmt args,
  (Z.of_nat (length fmt + length (List.concat (map text args))) < 2 ^ 64)%Z ->
  format fmt args <> UB /\ format fmt args <> Diverge.
Proof.
  intros fmt args B. destruct (pieces_exist fmt) as [ps H].
  destruct (decide (holes ps = length args)) as [HZ|HZ].
  - rewrite (format_eq _ _ _ H HZ); [done|].
    rewrite filled_length by (by rewrite map_length).
    assert (lits ps <= length fmt). { clear -H. induction H; unfold lits in *; cbn in *; lia. }
    lia.
  - rewrite (format_mismatch _ _ _ H HZ) by lia. done.
Qed.

(** ** C26: the template's holes are filled in order *)
Theorem format_substitutes : forall fmt args,
  (exists! ps, pieces fmt ps) /\
  forall ps, pieces fmt ps ->
    (holes ps = length args -> (Z.of_nat (length (filled ps (map text args))) < 2 ^ 64)%Z ->
       (s ← format fmt args; str_view s) = Ok (filled ps (map text args)) /\
       format_length fmt args = Ok (length (filled ps (map text args)))) /\
    (holes ps <> length args -> (Z.of_nat (length fmt) < 2 ^ 64)%Z -> format fmt args = Die).
Proof.
  intros fmt args. split.
  - destruct (pieces_exist fmt) as [ps H]. exists ps. split; [done|]. intros ps'. by apply pieces_unique.
  - intros ps H. split.
    + intros HZ B. rewrite (format_eq _ _ _ H HZ B), (format_length_eq _ _ _ H HZ). cbn [mbind res_bind].
      by rewrite str_view_full.
    + by apply format_mismatch.
Qed.

(** Integers are printed in decimal without superfluous zeros, and parsing the
    printed text gives the number back. *)
Theorem format_integer : forall k x,
  number x (text (FInt k x)) /\
  (is_i 64 x -> forall rest, starts_without digit rest ->
     parse_i64 (text (FInt k x) ++ rest) = Ok (Some (x, rest))).
Proof.
  intros k x. cbn [text]. split; [apply dec_text_number|].
  intros I rest R. apply parse_i64_round_trip; [apply dec_text_int|done|done].
Qed.

(** A Map that knows its true size prints with a comma between entries only. *)
Theorem format_map_commas : forall items,
  text (FMap (length items) items)
  = txt "Map[" ++ commas (map (fun kv => txt "{" ++ text kv.1 ++ txt " : " ++ text kv.2 ++ txt "}") items) ++ txt "]".
Proof. intros items. cbn [text]. rewrite <- commas_claiming_exact, map_length. done. Qed.
(** One that overcounts (Map::insert on an existing key) prints a separator
    after the last entry. *)
Theorem format_map_overcounted_refuted :
  exists s, (s ← format (txt "%") [FMap 2 [(FInt I32 1, FInt I32 2)]]; str_view s) = Ok s /\
    s = txt "Map[{1 : 2}, ]".
Proof. eexists. split; vm_compute; reflexivity. Qed.

Example format_ex :
  (s ← format (txt "%: %, 100%%")
     [FView (txt "values"); FSeq SVec [FPair (FInt I32 (-7)) (FBool true); FPair (FInt I32 120) (FBool false)]];
   str_view s)
  = Ok (txt "values: Vec[Pair{-7, true}, Pair{120, false}], 100%") /\
  format (txt "% %") [FBool true] = Die /\ format (txt "%") [] = Die /\
  format (txt "x") [FBool true] = Die /\
  text (FRecord (txt "P") [(txt "x", FInt I8 1); (txt "y", FOpt (Some (FChar 99)))]) = txt "P{x : 1, y : Opt{c}}" /\
  text (FVect VectU [FInt U32 1; FInt U32 2]) = txt "Vec2u{1, 2}".
Proof. vm_compute. split_and!; reflexivity. Qed.
Example format_pieces_ex : pieces (txt "a%%%b") [Lit 97; Lit 37; Hole; Lit 98].
Proof. repeat first [apply pieces_nil|apply pieces_percent|apply pieces_hole; [done|]|apply pieces_lit; [done|]]. Qed.

(** ** C27: concat *)
Theorem concat_joins : forall sep strings,
  (Z.of_nat (length (join sep strings)) < 2 ^ 64)%Z ->
  (s ← FormatModel.concat sep strings; str_view s) = Ok (join sep strings).
Proof. intros sep strings B. rewrite concat_eq by done. cbn [mbind res_bind]. apply str_view_full. Qed.
Example concat_ex :
  (s ← FormatModel.concat (txt ", ") [txt "a"; txt ""; txt "bc"]; str_view s) = Ok (txt "a, , bc") /\
  (s ← FormatModel.concat (txt ", ") []; str_view s) = Ok [] /\
  (s ← FormatModel.concat (txt ", ") [txt "a"; txt ""]; str_view s) = Ok (txt "a, ").
Proof. vm_compute. split_and!; reflexivity. Qed.

(** ** C74: format_typename *)
Theorem typename_spells_type : forall t,
  (Z.of_nat (length (type_text t)) < 2 ^ 64)%Z -> typename t = Ok (type_text t).
Proof. exact typename_eq. Qed.
Example typename_ex :
  typename (TApp (txt "Map") [TApp (txt "String") []; TPtr (TConst (TArr (TPlain (txt "i32")) 4))])
  = Ok (txt "Map<String<>, const i32[4]*>") /\
  typename (TFun (TPlain (txt "void")) [TLref (TPlain (txt "u8")); TSized (txt "Array") (TPlain (txt "u8")) 12])
  = Ok (txt "Function<void(u8&, Array<u8, 12>)>").
Proof. vm_compute. split; reflexivity. Qed.

Print Assumptions value_written_as_measured.
Print Assumptions format_length_exact.
Print Assumptions format_safe.
Print Assumptions format_substitutes.
Print Assumptions format_integer.
Print Assumptions format_map_commas.
Print Assumptions format_map_overcounted_refuted.
Print Assumptions concat_joins.
Print Assumptions typename_spells_type.
