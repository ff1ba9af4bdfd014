(** Lemmas for FormatProps.v. *)
From Verif Require Import Word MathModel StringModel StringSpec StringProofs FormatModel FormatSpec.
From Coq Require Import Ascii String.
Local Open Scope nat_scope.
Notation length := Datatypes.length.

(** ** Induction over values *)
Definition children (v : fval) : list fval :=
  match v with
  | FArray xs | FSeq _ xs | FTuple xs | FVect _ xs => xs
  | FRecord _ fs => map snd fs
  | FMap _ items => map fst items ++ map snd items
  | FOpt (Some x) | FBox (Some x) | FRef (Some x) | FRc _ (Some x) | FArc _ (Some x)
  | FVariant x | FNamed _ x => [x]
  | FPair l r => [l; r]
  | FMat4 rows => List.concat rows
  | FQuat x y z w => [x; y; z; w]
  | FBBox a b x d e f => [a; b; x; d; e; f]
  | _ => []
  end.

Lemma fval_ind_children (P : fval -> Prop) : (forall v, Forall P (children v) -> P v) -> forall v, P v.
Proof.
  intros H. fix IH 1. intros v. apply H.
  destruct v as [| | | | |xs| |name fs| | | |k xs|len items|v|v|v|n v|n v|l r|xs|v|name v| | |k xs|rows|x y z w|x0 y0 z0 x1 y1 z1];
    cbn [children]; try constructor;
    try (apply IH); try (destruct v as [v|]; repeat constructor; apply IH); repeat constructor; try (apply IH).
  - induction xs as [|x xs IHx]; constructor; [apply IH|exact IHx].
  - induction fs as [|[n x] fs IHx]; constructor; [apply IH|exact IHx].
  - induction xs as [|x xs IHx]; constructor; [apply IH|exact IHx].
  - apply Forall_app. split.
    + induction items as [|[a b] items IHx]; constructor; [apply IH|exact IHx].
    + induction items as [|[a b] items IHx]; constructor; [apply IH|exact IHx].
  - induction xs as [|x xs IHx]; constructor; [apply IH|exact IHx].
  - induction xs as [|x xs IHx]; constructor; [apply IH|exact IHx].
  - induction rows as [|row rows IHr]; [constructor|]. cbn. apply Forall_app. split; [|exact IHr].
    induction row as [|x row IHx]; constructor; [apply IH|exact IHx].
Qed.

(** ** Writers that append *)
Definition part (p : list Z) (rest : list (option Z)) : str * Z :=
  (mk_str ((Some <$> p) ++ rest) (length p + length rest), Z.of_nat (length p)).
(** [w] appends [t] to what is already there, whenever there is room. *)
Definition appends (w : str * Z -> res (str * Z)) (t : list Z) : Prop :=
  forall p rest, length t <= length rest -> (Z.of_nat (length p + length rest) < 2 ^ 64)%Z ->
    w (part p rest) = Ok (part (p ++ t) (drop (length t) rest)).

Lemma part_app p t rest :
  length t <= length rest ->
  part (p ++ t) (drop (length t) rest)
  = (mk_str ((Some <$> p) ++ (Some <$> t) ++ drop (length t) rest) (length p + length rest),
     Z.of_nat (length p + length t)).
Proof.
  intros H. unfold part. rewrite fmap_app, !app_length, drop_length, <- app_assoc. do 2 f_equal. lia.
Qed.

Lemma appends_bind w1 w2 t1 t2 :
  appends w1 t1 -> appends w2 t2 -> appends (fun o => o ← w1 o; w2 o) (t1 ++ t2).
Proof.
  intros H1 H2 p rest L B. rewrite app_length in L.
  rewrite H1 by lia. cbn [mbind res_bind].
  rewrite H2 by (rewrite ?app_length, ?drop_length; lia).
  rewrite drop_drop, <- app_assoc, app_length. done.
Qed.
Lemma appends_ok : appends Ok [].
Proof. intros p rest L B. cbn. by rewrite app_nil_r, drop_0. Qed.
Lemma appends_ext w w' t t' : (forall o, w o = w' o) -> t = t' -> appends w t -> appends w' t'.
Proof. intros E -> H p rest L B. rewrite <- E. by apply H. Qed.

Lemma appends_put t : appends (put t) t.
Proof.
  intros p rest L B. rewrite part_app by done. unfold put, part, str_write. cbn [fst snd sdata slen].
  rewrite wrap_small by (unfold is_u; lia).
  rewrite (proj2 (Z.leb_le _ _)) by lia. cbn [assert_ mbind res_bind].
  rewrite Nat2Z.id.
  rewrite memcpy_eq by (rewrite app_length, !fmap_length; lia). cbn [mbind res_bind].
  rewrite take_app_alt by (by rewrite fmap_length).
  rewrite fmap_length.
  rewrite drop_add_app by (by rewrite fmap_length). rewrite Nat2Z.inj_add. done.
Qed.
Lemma appends_putc x : appends (putc x) [x].
Proof.
  intros p rest L B. cbn [length] in L. rewrite part_app by done. unfold putc, part, str_write_char. cbn [fst snd sdata slen].
  rewrite (proj2 (Z.ltb_lt _ _)) by lia. cbn [assert_ mbind res_bind].
  rewrite Nat2Z.id. unfold str_set. cbn [sdata slen].
  rewrite (proj2 (Nat.ltb_lt (length p) (length p + length rest))) by lia. cbn [assert_ mbind res_bind].
  rewrite (proj2 (Nat.ltb_lt (length p) _)) by (rewrite app_length, fmap_length; lia). cbn [mbind res_bind].
  rewrite wrap_small by (unfold is_u; lia).
  destruct rest as [|r rest]; [cbn in L; lia|].
  rewrite insert_app_r_alt by (rewrite fmap_length; lia). rewrite fmap_length, Nat.sub_diag.
  cbn [length fmap list_fmap app]. f_equal. f_equal. lia.
Qed.

Lemma appends_snprintf t : appends (fmt_snprintf t) t.
Proof.
  intros p rest L B. unfold fmt_snprintf.
  rewrite set_length_ok by (unfold scap, str_new; cbn [sdata]; rewrite replicate_length; lia).
  cbn [mbind res_bind sdata slen]. unfold c_snprintf.
  destruct (Nat.eqb_spec (length t + 1) 0) as [E|_]; [lia|].
  rewrite (take_ge t) by lia.
  rewrite memcpy_eq by (unfold str_new; cbn [sdata]; rewrite fmap_length, app_length, replicate_length; cbn; lia).
  cbn [mbind res_bind].
  rewrite take_0, drop_ge by (unfold str_new; cbn [sdata]; rewrite fmap_length, app_length, replicate_length; cbn; lia).
  cbn [app]. rewrite app_nil_r.
  replace (length t + 1) with (length (t ++ [0%Z])) by (by rewrite app_length).
  rewrite str_view_full. cbn [mbind res_bind].
  pose proof (view_sub_app [] t [0%Z] 0 (length t) eq_refl eq_refl) as V. cbn [app] in V. rewrite V. cbn [mbind res_bind].
  by apply appends_put.
Qed.

(** the pointer case, format.h:171-173 *)
Lemma appends_pointer t :
  appends (fun o => o ← putc (chr "(") o;
      d ← c_snprintf (sdata o.1) (Z.to_nat o.2) (slen o.1 - Z.to_nat o.2) t;
      putc (chr ")") (mk_str d (slen o.1), wrap 64 (o.2 + Z.of_nat (length t))))
    (txt "(" ++ t ++ txt ")").
Proof.
  intros p rest L B. rewrite !app_length in L. change (length (txt "(")) with 1 in L. change (length (txt ")")) with 1 in L.
  rewrite (appends_putc (chr "(")) by (cbn [length]; lia). cbn [mbind res_bind].
  set (p1 := p ++ [chr "("]). set (r1 := drop (length [chr "("]) rest).
  assert (length r1 = length rest - 1) as L1 by (subst r1; rewrite drop_length; done).
  assert (length p1 = length p + 1) as L2 by (subst p1; rewrite app_length; done).
  unfold part at 1 2 3 4 5 6. cbn [fst snd sdata slen]. rewrite Nat2Z.id.
  unfold c_snprintf. destruct (Nat.eqb_spec (length p1 + length r1 - length p1) 0) as [E|_]; [lia|].
  rewrite take_ge by lia.
  rewrite memcpy_eq by (rewrite fmap_length, !app_length, fmap_length; cbn [length]; lia).
  cbn [mbind res_bind].
  rewrite take_app_alt by (by rewrite fmap_length).
  rewrite fmap_length, app_length. cbn [length].
  rewrite drop_add_app by (by rewrite fmap_length).
  rewrite wrap_small by (unfold is_u; lia).
  rewrite fmap_app, <- app_assoc, app_assoc, <- fmap_app.
  set (r2 := (Some <$> [0%Z]) ++ drop (length t + 1) r1).
  assert (length r2 = length rest - 1 - length t) as L3.
  { subst r2. rewrite app_length, drop_length. cbn [length fmap list_fmap]. lia. }
  pose proof (appends_putc (chr ")") (p1 ++ t) r2) as P. unfold part at 1 in P.
  rewrite L3 in P. rewrite (app_length p1 t) in P.
  replace (length p1 + length r1) with (length p1 + length t + (length rest - 1 - length t)) by lia.
  rewrite <- Nat2Z.inj_add. rewrite P by (cbn [length]; lia). clear P.
  f_equal. unfold part. rewrite !app_length. unfold r2, p1, r1.
  change (txt "(") with [chr "("]. change (txt ")") with [chr ")"].
  cbn [length].
  rewrite !drop_length.
  f_equal; [|f_equal; rewrite app_length; cbn [length]; lia].
  f_equal; [|rewrite !app_length, !drop_length; cbn [length fmap list_fmap]; lia].
  f_equal; [by rewrite <- !app_assoc|].
  rewrite drop_drop. cbn [fmap list_fmap app].
  change (drop 1 (Some 0%Z :: drop (1 + (length t + 1)) rest)) with (drop (1 + (length t + 1)) rest).
  done.
Qed.

(** ** Loops *)
Fixpoint sep_texts (ts : list (list Z)) (n len : nat) : list Z :=
  match ts with
  | [] => []
  | t :: ts' => t ++ (if n + 1 <? len then txt ", " else []) ++ sep_texts ts' (S n) len
  end.
Lemma sep_texts_claiming ts n len : n <= len -> sep_texts ts n len = commas_claiming (len - n) ts.
Proof.
  revert n. induction ts as [|t ts IH]; intros n H; [done|]. cbn [sep_texts commas_claiming].
  destruct (Nat.ltb_spec (n + 1) len), (Nat.ltb_spec 1 (len - n)); try lia.
  - rewrite IH by lia. do 3 f_equal. lia.
  - cbn [app]. f_equal. destruct (decide (n = len)) as [->|].
    + clear. replace (len - len - 1) with 0 by lia.
      assert (forall ts k, len <= k -> sep_texts ts k len = List.concat ts) as A.
      { induction ts0 as [|t' ts0 IHt]; intros k Hk; [done|]. cbn [sep_texts].
        destruct (Nat.ltb_spec (k + 1) len); [lia|]. cbn. by rewrite IHt by lia. }
      assert (forall ts, commas_claiming 0 ts = List.concat ts) as C.
      { induction ts0 as [|t' ts0 IHt]; [done|]. cbn [commas_claiming]. cbn. by rewrite IHt. }
      rewrite A, C by lia. done.
    + rewrite IH by lia. f_equal. lia.
Qed.
Lemma commas_claiming_exact ts : commas_claiming (length ts) ts = commas ts.
Proof.
  unfold commas. induction ts as [|t [|t' ts] IH]; [done| |].
  - cbn. by rewrite app_nil_r.
  - change (commas_claiming (length (t :: t' :: ts)) (t :: t' :: ts))
      with (t ++ txt ", " ++ commas_claiming (length (t' :: ts)) (t' :: ts)).
    rewrite IH. done.
Qed.
Lemma sep_texts_exact ts : sep_texts ts 0 (length ts) = commas ts.
Proof. rewrite sep_texts_claiming by lia. rewrite Nat.sub_0_r. apply commas_claiming_exact. Qed.

Lemma appends_loop {A} (f : A -> str * Z -> res (str * Z)) (g : A -> list Z) xs n len :
  Forall (fun x => appends (f x) (g x)) xs ->
  appends (write_loop f xs n len) (sep_texts (map g xs) n len).
Proof.
  intros H. revert n. induction H as [|x xs Hx _ IH]; intros n; cbn [write_loop map sep_texts].
  - apply appends_ok.
  - apply appends_bind; [done|]. apply appends_bind; [|apply IH].
    destruct (n + 1 <? len); [apply appends_put|apply appends_ok].
Qed.
Lemma measure_loop_texts {A} (m : A -> nat) (g : A -> list Z) xs n len acc :
  Forall (fun x => length (g x) = m x) xs ->
  measure_loop m xs n len acc = acc + length (sep_texts (map g xs) n len).
Proof.
  intros H. revert n acc. induction H as [|x xs Hx _ IH]; intros n acc; cbn [measure_loop map sep_texts]; [cbn; lia|].
  rewrite IH, !app_length, Hx. destruct (n + 1 <? len); cbn; lia.
Qed.
Lemma measure_sum_texts {A} (m : A -> nat) (g : A -> list Z) xs acc :
  Forall (fun x => length (g x) = m x) xs ->
  measure_sum m xs acc = acc + length (List.concat (map g xs)).
Proof.
  intros H. revert acc. induction H as [|x xs Hx _ IH]; intros acc; cbn [measure_sum map List.concat]; [cbn; lia|].
  rewrite IH, app_length, Hx. lia.
Qed.
Lemma commas_length ts :
  length (commas ts) = length (List.concat ts) + if 1 <? length ts then 2 * (length ts - 1) else 0.
Proof.
  unfold commas. induction ts as [|t [|t' ts] IH]; [done|cbn; rewrite app_nil_r; lia|].
  cbn [join]. rewrite !app_length. cbn [join] in IH. rewrite IH. cbn [List.concat]. rewrite !app_length.
  change (length (txt ", ")) with 2. cbn [length].
  change (1 <? S (S (length ts))) with true.
  destruct (Nat.ltb_spec 1 (S (length ts))); lia.
Qed.

Lemma appends_enum members value :
  appends (write_enum members value) (List.concat (map fst (List.filter (fun m => (value =? m.2)%Z) members))).
Proof.
  induction members as [|[name check] ms IH]; cbn [write_enum List.filter]; [apply appends_ok|]. cbn [snd].
  destruct (value =? check)%Z.
  - cbn [map List.concat fst]. apply appends_bind; [apply appends_put|done].
  - eapply appends_ext; [| |apply (appends_bind Ok (write_enum ms value) []); [apply appends_ok|exact IH]]; done.
Qed.
Lemma measure_enum (members : list (list Z * Z)) value acc :
  fold_left (fun len m => if (value =? m.2)%Z then len + length (m.1 : list Z) else len) members acc
  = acc + length (List.concat (map fst (List.filter (fun m => (value =? m.2)%Z) members))).
Proof.
  revert acc. induction members as [|[name check] ms IH]; intros acc; cbn [fold_left List.filter fst snd]; [cbn; lia|].
  rewrite IH. destruct (value =? check)%Z; [|done]. cbn [map List.concat fst]. rewrite app_length. lia.
Qed.

Definition good (v : fval) : Prop := appends (write_val v) (text v) /\ length (text v) = measure v.

Lemma forall_good_loop xs :
  Forall good xs ->
  appends (write_loop write_val xs 0 (length xs)) (commas (map text xs)) /\
  forall acc, measure_loop measure xs 0 (length xs) acc = acc + length (commas (map text xs)).
Proof.
  intros H. rewrite <- sep_texts_exact, map_length. split.
  - apply appends_loop. eapply Forall_impl; [exact H|]. intros x Hx. apply Hx.
  - intros acc. apply measure_loop_texts. eapply Forall_impl; [exact H|]. intros x Hx. apply Hx.
Qed.

Ltac app_steps := repeat first
  [ apply appends_put | apply appends_putc | apply appends_snprintf | eassumption | apply appends_bind ].
Ltac lens := rewrite ?app_length;
  repeat match goal with
  | |- context [length (txt ?s)] => let n := eval vm_compute in (length (txt s)) in change (length (txt s)) with n
  end.
(** appends by composing; then the built text is the specified one *)
Ltac by_appending := eapply appends_ext;
  [intros o; reflexivity| |app_steps];
  cbn [text]; rewrite <- ?app_assoc; try reflexivity.

Lemma good_one w (x : fval) a b (m : nat) :
  good x ->
  (forall o, w o = (o ← put (txt a) o; o ← write_val x o; putc b o)) ->
  m = length (txt a) + 1 + measure x ->
  appends w (txt a ++ text x ++ [b]) /\ length (txt a ++ text x ++ [b]) = m.
Proof.
  intros [H1 H2] Hw ->. split.
  - eapply appends_ext; [intros o; symmetry; apply Hw|reflexivity|]. app_steps.
  - rewrite !app_length, H2. cbn [length]. lia.
Qed.

Lemma write_measured v : good v.
Proof.
  induction v as [v IH] using fval_ind_children.
  destruct v as [|ch|t x|t|b|xs|t|name fs|name ms value|b|b|k xs|len items|v|v|v|n v|n v|l r|xs|v|name v|ret args|name|k xs|rows|x y z w|x0 y0 z0 x1 y1 z1];
    cbn [children] in IH.
  - split; [apply appends_put|done].
  - split; [apply appends_putc|done].
  - split; [apply appends_snprintf|done].
  - split; [apply appends_snprintf|done].
  - split; [|by destruct b]. destruct b; apply appends_put.
  - destruct (forall_good_loop xs IH) as [W M]. split; [by_appending|].
    cbn [text measure]. lens. rewrite M. lia.
  - destruct t as [t|].
    + split; [apply appends_pointer|]. cbn [text measure]. lens. lia.
    + split; [apply appends_put|done].
  - assert (appends (write_loop (fun '(fname, x) o =>
        o ← put fname o; o ← put (txt " : ") o; write_val x o) fs 0 (length fs))
      (commas (map (fun f => f.1 ++ txt " : " ++ text f.2) fs)) /\
      measure_loop (fun '(fname, x) => length (fname : list Z) + 3 + measure x) fs 0 (length fs) 0
      = length (commas (map (fun f => f.1 ++ txt " : " ++ text f.2) fs))) as [W M].
    { rewrite <- sep_texts_exact, map_length. split.
      - apply appends_loop. rewrite Forall_map in IH. eapply Forall_impl; [exact IH|].
        intros [n x] [H1 H2]. cbn [fst snd]. cbn [compose snd] in *. app_steps.
      - apply (measure_loop_texts _ (fun f => f.1 ++ txt " : " ++ text f.2) fs 0 (length fs) 0). rewrite Forall_map in IH.
        eapply Forall_impl; [exact IH|]. intros [n x] [H1 H2]. cbn [fst snd compose] in *. lens. lia. }
    split; [by_appending|]. cbn [text measure]. lens. rewrite M. lia.
  - split.
    + pose proof (appends_enum ms value). by_appending.
    + cbn [text measure]. rewrite measure_enum. lens. lia.
  - split; [apply appends_put|done].
  - split; [apply appends_put|done].
  - destruct (forall_good_loop xs IH) as [W M]. split.
    + destruct k; by_appending.
    + cbn [text measure]. rewrite M. destruct k; lens; lia.
  - apply Forall_app in IH as [IH1 IH2]. rewrite Forall_map in IH1, IH2.
    assert (Forall (fun kv => good kv.1 /\ good kv.2) items) as IH'.
    { clear -IH1 IH2. induction items as [|[a b] items IH]; [constructor|].
      apply Forall_cons in IH1 as [? ?], IH2 as [? ?]. constructor; [done|by apply IH]. }
    set (g := fun kv : fval * fval => txt "{" ++ text kv.1 ++ txt " : " ++ text kv.2 ++ txt "}").
    assert (appends (write_loop (fun '(k, x) o =>
            o ← put (txt "{") o; o ← write_val k o; o ← put (txt " : ") o;
            o ← write_val x o; putc (chr "}") o) items 0 len) (commas_claiming len (map g items)) /\
      measure_loop (fun '(k, x) => 5 + (measure k + measure x)) items 0 len 5
      = 5 + length (commas_claiming len (map g items))) as [W M].
    { rewrite <- (Nat.sub_0_r len) at 2 4. rewrite <- sep_texts_claiming by lia. split.
      - apply appends_loop. eapply Forall_impl; [exact IH'|].
        intros [a b] [[A1 A2] [B1 B2]]. cbn [fst snd] in *. subst g. cbn [fst snd]. app_steps.
      - apply measure_loop_texts. eapply Forall_impl; [exact IH'|].
        intros [a b] [[A1 A2] [B1 B2]]. cbn [fst snd] in *. subst g. cbn [fst snd]. lens. lia. }
    split; [by_appending|]. cbn [text measure]. rewrite M. fold g. lens. lia.
  - destruct v as [v|]; [|split; [apply appends_put|done]].
    apply Forall_cons in IH as [Hv _]. by apply (good_one _ v "Opt{" (chr "}")).
  - destruct v as [v|]; [|split; [apply appends_put|done]].
    apply Forall_cons in IH as [Hv _]. by apply (good_one _ v "Box{" (chr "}")).
  - destruct v as [v|]; [|split; [apply appends_put|done]].
    apply Forall_cons in IH as [Hv _]. by apply (good_one _ v "Ref{" (chr "}")).
  - destruct v as [v|]; [|split; [apply appends_put|done]].
    apply Forall_cons in IH as [[H1 H2] _]. split; [by_appending|].
    cbn [text measure]. unfold measure_int. lens. lia.
  - destruct v as [v|]; [|split; [apply appends_put|done]].
    apply Forall_cons in IH as [[H1 H2] _]. split; [by_appending|].
    cbn [text measure]. unfold measure_int. lens. lia.
  - apply Forall_cons in IH as [[L1 L2] [[R1 R2] _]%Forall_cons]. split; [by_appending|].
    cbn [text measure]. lens. lia.
  - destruct (forall_good_loop xs IH) as [W _]. split; [by_appending|].
    cbn [text measure]. lens. rewrite commas_length, map_length.
    rewrite (measure_sum_texts measure text).
    2: { eapply Forall_impl; [exact IH|]. intros x Hx. apply Hx. }
    lia.
  - apply Forall_cons in IH as [Hv _]. by apply (good_one _ v "Variant{" (chr "}")).
  - apply Forall_cons in IH as [[H1 H2] _]. split; [by_appending|].
    cbn [text measure]. lens. lia.
  - assert (appends (write_loop put args 0 (length args)) (commas args)) as W.
    { rewrite <- sep_texts_exact. rewrite <- (map_id args) at 3. apply (appends_loop put (fun x => x)).
      apply Forall_true. intros x. apply appends_put. }
    split; [by_appending|]. cbn [text measure]. lens. rewrite commas_length.
    rewrite (measure_sum_texts _ (fun x => x)), map_id by (by apply Forall_true). lia.
  - split; [by_appending|]. cbn [text measure]. lens. lia.
  - destruct (forall_good_loop xs IH) as [W M]. split.
    + destruct k; by_appending.
    + cbn [text measure]. rewrite M. unfold measure_int. destruct k; lens; lia.
  - set (g := fun row => txt "{" ++ commas (map text row) ++ txt "}").
    assert (Forall (fun row => Forall good row) rows) as IH'.
    { clear -IH. induction rows as [|r rows IHr]; [constructor|]. cbn in IH.
      apply Forall_app in IH as [? ?]. constructor; [done|by apply IHr]. }
    assert (appends (write_loop (fun row o =>
            o ← putc (chr "{") o; o ← write_loop write_val row 0 (length row) o; putc (chr "}") o)
          rows 0 (length rows)) (commas (map g rows)) /\
      measure_loop (fun row => measure_loop measure row 0 (length (row : list fval)) 1 + 1) rows 0 (length rows) 6
      = 6 + length (commas (map g rows))) as [W M].
    { rewrite <- sep_texts_exact, map_length. split.
      - apply appends_loop. eapply Forall_impl; [exact IH'|]. intros row Hr.
        destruct (forall_good_loop row Hr) as [W M]. subst g. cbn beta. app_steps.
      - apply measure_loop_texts. eapply Forall_impl; [exact IH'|]. intros row Hr.
        destruct (forall_good_loop row Hr) as [W M]. subst g. cbn beta. rewrite M. lens. lia. }
    split; [by_appending|]. cbn [text measure]. rewrite M. fold g. lens. lia.
  - repeat (apply Forall_cons in IH as [[? ?] IH]). split; [by_appending|].
    1: unfold commas; cbn [join]; rewrite <- !app_assoc; reflexivity.
    cbn [text measure]. unfold commas. cbn [join]. lens. lia.
  - repeat (apply Forall_cons in IH as [[? ?] IH]). split; [by_appending|].
    1: unfold commas; cbn [join]; rewrite <- !app_assoc; reflexivity.
    cbn [text measure]. unfold commas. cbn [join]. lens. lia.
Qed.

(** ** Templates *)
Lemma pieces_exist r : exists ps, pieces r ps.
Proof.
  remember (length r) as n eqn:E. revert r E. induction n as [n IH] using lt_wf_ind. intros r E.
  destruct r as [|b r]; [eexists; constructor|].
  destruct (decide (b = 37%Z)) as [->|N].
  - destruct r as [|b' r]; [eexists; constructor|].
    destruct (decide (b' = 37%Z)) as [->|N'].
    + destruct (IH (length r)) with (r := r) as [ps H]; [cbn in E; lia|done|]. eexists. by constructor.
    + destruct (IH (length (b' :: r))) with (r := b' :: r) as [ps H]; [cbn in *; lia|done|].
      eexists. by constructor.
  - destruct (IH (length r)) with (r := r) as [ps H]; [cbn in E; lia|done|]. eexists. by constructor.
Qed.
Lemma pieces_unique r ps ps' : pieces r ps -> pieces r ps' -> ps = ps'.
Proof.
  intros H. revert ps'. induction H; intros ps'; inversion 1; subst; try done; f_equal; auto.
Qed.

Definition lits (ps : list piece) : nat := length (List.filter (fun p => match p with Lit _ => true | Hole => false end) ps).

Lemma next_is_percent_eq p x r :
  next_is_percent (p ++ x :: r) (length p) = match r with b :: _ => (b =? 37)%Z | [] => false end.
Proof.
  unfold next_is_percent. rewrite app_length. cbn [length].
  destruct r as [|b r].
  - cbn [length]. rewrite Nat.ltb_irrefl. done.
  - cbn [length]. rewrite (proj2 (Nat.ltb_lt _ _)) by lia.
    rewrite lookup_app_r by lia. replace (length p + 1 - length p) with 1 by lia. done.
Qed.
Lemma view_get_mid p x r : view_get (p ++ x :: r) (length p) = Ok x.
Proof. apply view_get_ok. rewrite lookup_app_r, Nat.sub_diag by lia. done. Qed.
Lemma index_mid {A} (p : list Z) x r (a b : A) : (if length p <? length (p ++ x :: r) then a else b) = a.
Proof. rewrite (proj2 (Nat.ltb_lt _ _)); [done|]. rewrite app_length. cbn. lia. Qed.
Lemma index_end {A} (p : list Z) (a b : A) : (if length p <? length (p ++ []) then a else b) = b.
Proof. rewrite app_nil_r, Nat.ltb_irrefl. done. Qed.
Lemma snoc1 (p : list Z) x r : p ++ x :: r = (p ++ [x]) ++ r.
Proof. by rewrite <- app_assoc. Qed.
Lemma snoc2 (p : list Z) x y r : p ++ x :: y :: r = (p ++ [x; y]) ++ r.
Proof. by rewrite <- app_assoc. Qed.
Lemma len1 (p : list Z) x : length p + 1 = length (p ++ [x]).
Proof. by rewrite app_length. Qed.
Lemma len2 (p : list Z) x y : length p + 1 + 1 = length (p ++ [x; y]).
Proof. rewrite app_length. cbn. lia. Qed.

Lemma parse_fmt_end q fuel acc : parse_fmt q fuel (length q) acc = Ok acc.
Proof. destruct fuel; cbn [parse_fmt]; rewrite Nat.ltb_irrefl; done. Qed.
Lemma parse_fmt_eq r ps : pieces r ps -> forall p fuel acc,
  length r <= fuel ->
  parse_fmt (p ++ r) fuel (length p) acc = Ok (acc.1 + lits ps, acc.2 + holes ps).
Proof.
  induction 1 as [|r ps H IH| |b r ps N H IH|b r ps N H IH]; intros p fuel acc F; cbn [length] in F.
  - rewrite app_nil_r, parse_fmt_end. destruct acc; cbn. f_equal. f_equal; lia.
  - destruct fuel as [|fuel]; [lia|]. cbn [parse_fmt]. rewrite index_mid, view_get_mid. cbn [mbind res_bind].
    change (37 =? chr "%")%Z with true. cbv iota. rewrite next_is_percent_eq. change (37 =? 37)%Z with true. cbv iota.
    rewrite (len2 p 37 37), snoc2, IH by lia. unfold lits. cbn. f_equal. f_equal. lia.
  - destruct fuel as [|fuel]; [lia|]. cbn [parse_fmt]. rewrite index_mid, view_get_mid. cbn [mbind res_bind].
    change (37 =? chr "%")%Z with true. cbv iota. rewrite next_is_percent_eq.
    rewrite (len1 p 37), parse_fmt_end. cbn. f_equal. f_equal; lia.
  - destruct fuel as [|fuel]; [lia|]. cbn [parse_fmt]. rewrite index_mid, view_get_mid. cbn [mbind res_bind].
    change (37 =? chr "%")%Z with true. cbv iota. rewrite next_is_percent_eq.
    rewrite (proj2 (Z.eqb_neq _ _) N).
    rewrite (len1 p 37), snoc1, IH by (cbn [length]; lia). cbn. f_equal. f_equal. lia.
  - destruct fuel as [|fuel]; [lia|]. cbn [parse_fmt]. rewrite index_mid, view_get_mid. cbn [mbind res_bind].
    change (chr "%") with 37%Z. rewrite (proj2 (Z.eqb_neq _ _) N).
    rewrite (len1 p b), snoc1, IH by lia. unfold lits. cbn. f_equal. f_equal. lia.
Qed.

Ltac at_index := rewrite index_mid, view_get_mid; cbn [mbind res_bind]; change (chr "%") with 37%Z.
Lemma write_rest_end q fuel o : write_rest q fuel (length q) o = Ok o.
Proof. destruct fuel; cbn [write_rest]; rewrite Nat.ltb_irrefl; done. Qed.
Lemma write_rest_percent p r fuel o :
  write_rest (p ++ 37 :: 37 :: r)%Z (S fuel) (length p) o
  = (o ← putc 37%Z o; write_rest ((p ++ [37; 37])%Z ++ r) fuel (length (p ++ [37; 37]%Z)) o).
Proof.
  cbn [write_rest]. at_index. change (37 =? 37)%Z with true. cbv iota. rewrite next_is_percent_eq.
  change (37 =? 37)%Z with true. cbn [assert_ mbind res_bind]. by rewrite (len2 p 37 37), snoc2.
Qed.
Lemma write_rest_lit p b r fuel o : b <> 37%Z ->
  write_rest (p ++ b :: r) (S fuel) (length p) o
  = (o ← putc b o; write_rest ((p ++ [b]) ++ r) fuel (length (p ++ [b])) o).
Proof.
  intros N. cbn [write_rest]. at_index. rewrite (proj2 (Z.eqb_neq _ _) N). by rewrite (len1 p b), snoc1.
Qed.
Lemma write_rest_die p r fuel o : (forall r', r <> 37%Z :: r') ->
  write_rest (p ++ 37%Z :: r) (S fuel) (length p) o = Die.
Proof.
  intros N. cbn [write_rest]. at_index. change (37 =? 37)%Z with true. cbv iota. rewrite next_is_percent_eq.
  destruct r as [|b r]; [done|]. destruct (Z.eqb_spec b 37) as [->|]; [by destruct (N r)|done].
Qed.

Lemma write_rest_appends r ps : pieces r ps -> holes ps = 0 -> forall p fuel,
  length r <= fuel -> appends (write_rest (p ++ r) fuel (length p)) (filled ps []).
Proof.
  induction 1 as [|r ps H IH| |b r ps N H IH|b r ps N H IH]; cbn [holes]; intros HZ p fuel F; cbn [length] in F; try lia.
  - rewrite app_nil_r. eapply appends_ext; [intros o; symmetry; apply write_rest_end|reflexivity|apply appends_ok].
  - destruct fuel as [|fuel]; [lia|]. cbn [filled].
    eapply appends_ext; [intros o; symmetry; apply write_rest_percent|reflexivity|].
    apply (appends_bind _ _ [37%Z]); [apply appends_putc|]. apply IH; [done|lia].
  - destruct fuel as [|fuel]; [lia|]. cbn [filled].
    eapply appends_ext; [intros o; symmetry; by apply write_rest_lit|reflexivity|].
    apply (appends_bind _ _ [b]); [apply appends_putc|]. apply IH; [done|lia].
Qed.

Lemma write_rest_hole r ps : pieces r ps -> holes ps <> 0 -> forall p fuel q rest,
  length r <= fuel -> lits ps <= length rest -> (Z.of_nat (length q + length rest) < 2 ^ 64)%Z ->
  write_rest (p ++ r) fuel (length p) (part q rest) = Die.
Proof.
  induction 1 as [|r ps H IH| |b r ps N H IH|b r ps N H IH]; cbn [holes]; intros HZ p fuel q rest F R B; cbn [length] in F; try lia.
  - destruct fuel as [|fuel]; [lia|]. rewrite write_rest_percent.
    unfold lits in R. cbn in R. fold (lits ps) in R.
    rewrite (appends_putc 37%Z) by (cbn [length]; lia). cbn [mbind res_bind].
    apply IH; [done|lia|rewrite drop_length; cbn [length]; lia|rewrite app_length, drop_length; cbn [length]; lia].
  - destruct fuel as [|fuel]; [lia|]. by apply write_rest_die.
  - destruct fuel as [|fuel]; [lia|]. apply write_rest_die. congruence.
  - destruct fuel as [|fuel]; [lia|]. rewrite write_rest_lit by done.
    unfold lits in R. cbn in R. fold (lits ps) in R.
    rewrite (appends_putc b) by (cbn [length]; lia). cbn [mbind res_bind].
    apply IH; [done|lia|rewrite drop_length; cbn [length]; lia|rewrite app_length, drop_length; cbn [length]; lia].
Qed.

Lemma write_arg_percent p r fuel a k o :
  write_arg (p ++ 37 :: 37 :: r)%Z a k (S fuel) (length p) o
  = (o ← putc 37%Z o; write_arg ((p ++ [37; 37])%Z ++ r) a k fuel (length (p ++ [37; 37]%Z)) o).
Proof.
  cbn [write_arg]. at_index. change (37 =? 37)%Z with true. cbv iota. rewrite next_is_percent_eq.
  change (37 =? 37)%Z with true. cbv iota. by rewrite (len2 p 37 37), snoc2.
Qed.
Lemma write_arg_lit p b r fuel a k o : b <> 37%Z ->
  write_arg (p ++ b :: r) a k (S fuel) (length p) o
  = (o ← putc b o; write_arg ((p ++ [b]) ++ r) a k fuel (length (p ++ [b])) o).
Proof.
  intros N. cbn [write_arg]. at_index. rewrite (proj2 (Z.eqb_neq _ _) N). by rewrite (len1 p b), snoc1.
Qed.
Lemma write_arg_hole p r fuel a k o : (forall r', r <> 37%Z :: r') ->
  write_arg (p ++ 37%Z :: r) a k (S fuel) (length p) o
  = (o ← write_val a o; k (length (p ++ [37%Z])) o).
Proof.
  intros N. cbn [write_arg]. at_index. change (37 =? 37)%Z with true. cbv iota. rewrite next_is_percent_eq.
  rewrite <- (len1 p 37).
  destruct r as [|b r]; [done|]. destruct (Z.eqb_spec b 37) as [->|]; [by destruct (N r)|done].
Qed.
Lemma write_arg_appends fmt a k (args : list (list Z)) :
  (forall p r ps, fmt = p ++ r -> pieces r ps -> holes ps = length args -> appends (k (length p)) (filled ps args)) ->
  forall r ps, pieces r ps -> holes ps = S (length args) -> forall p fuel,
  fmt = p ++ r -> length r <= fuel ->
  appends (write_arg fmt a k fuel (length p)) (filled ps (text a :: args)).
Proof.
  intros HK. induction 1 as [|r ps H IH| |b r ps N H IH|b r ps N H IH]; cbn [holes]; intros HZ p fuel E F; cbn [length] in F; try lia.
  - destruct fuel as [|fuel]; [lia|]. subst fmt. cbn [filled].
    eapply appends_ext; [intros o; symmetry; apply write_arg_percent|reflexivity|].
    apply (appends_bind _ _ [37%Z]); [apply appends_putc|]. rewrite <- snoc2. apply IH; [done|apply snoc2|lia].
  - destruct fuel as [|fuel]; [lia|]. subst fmt. cbn [filled].
    eapply appends_ext; [intros o; symmetry; by apply write_arg_hole|reflexivity|].
    apply appends_bind; [apply write_measured|].
    apply (HK _ [] []); [by rewrite app_nil_r|constructor|cbn; lia].
  - destruct fuel as [|fuel]; [lia|]. subst fmt. cbn [filled].
    eapply appends_ext; [intros o; symmetry; apply write_arg_hole; congruence|reflexivity|].
    apply appends_bind; [apply write_measured|].
    apply (HK _ (b :: r)); [apply snoc1|done|lia].
  - destruct fuel as [|fuel]; [lia|]. subst fmt. cbn [filled].
    eapply appends_ext; [intros o; symmetry; by apply write_arg_lit|reflexivity|].
    apply (appends_bind _ _ [b]); [apply appends_putc|]. rewrite <- snoc1. apply IH; [done|apply snoc1|lia].
Qed.

Lemma write_fmt_appends fmt args : forall p r ps,
  fmt = p ++ r -> pieces r ps -> holes ps = length args ->
  appends (write_fmt fmt args (length p)) (filled ps (map text args)).
Proof.
  induction args as [|a args IH]; intros p r ps E H HZ; cbn [write_fmt map].
  - subst fmt. rewrite app_length. replace (length p + length r - length p) with (length r) by lia.
    by apply write_rest_appends.
  - eapply write_arg_appends; [|exact H| |exact E|].
    + intros p' r' ps' E' H' HZ'. rewrite map_length in HZ'. by eapply IH.
    + rewrite map_length. done.
    + rewrite E, app_length. lia.
Qed.

Lemma filled_length ps args :
  holes ps = length args -> length (filled ps args) = lits ps + length (List.concat args).
Proof.
  revert args. induction ps as [|[b|] ps IH]; intros args; cbn [holes filled].
  - intros E. symmetry in E. apply nil_length_inv in E as ->. done.
  - intros E. cbn [length]. rewrite IH by done. unfold lits. cbn. lia.
  - destruct args as [|a args]; [done|]. intros [= E]. rewrite app_length, IH by done. unfold lits. cbn.
    rewrite app_length. lia.
Qed.
Lemma measures_sum args :
  foldr (fun a s => measure a + s) 0 args = length (List.concat (map text args)).
Proof.
  induction args as [|a args IH]; [done|]. cbn [foldr map List.concat]. rewrite app_length, IH.
  destruct (write_measured a) as [_ ->]. done.
Qed.

Lemma part_start n : (mk_str (replicate n None) n, 0%Z) = part [] (replicate n None).
Proof. unfold part. cbn. by rewrite replicate_length. Qed.
Lemma part_done t : part ([] ++ t) (drop (length t) (replicate (length t) None)) = (mk_str (Some <$> t) (length t), Z.of_nat (length t)).
Proof.
  unfold part. cbn [app]. rewrite drop_ge by (by rewrite replicate_length). cbn [length].
  by rewrite app_nil_r, Nat.add_0_r.
Qed.

Lemma format_length_eq fmt ps args :
  pieces fmt ps -> holes ps = length args ->
  format_length fmt args = Ok (length (filled ps (map text args))).
Proof.
  intros H HZ. unfold format_length. pose proof (parse_fmt_eq _ _ H [] (length fmt) (0, 0)) as P.
  cbn [app length] in P. rewrite P by lia. cbn [mbind res_bind fst snd Nat.add].
  rewrite filled_length by (by rewrite map_length). rewrite <- measures_sum.
  destruct args as [|a args]; [cbn; f_equal; lia|].
  rewrite HZ, Nat.eqb_refl. done.
Qed.

Lemma format_eq fmt ps args :
  pieces fmt ps -> holes ps = length args ->
  (Z.of_nat (length (filled ps (map text args))) < 2 ^ 64)%Z ->
  format fmt args = Ok (mk_str (Some <$> filled ps (map text args)) (length (filled ps (map text args)))).
Proof.
  intros H HZ B. unfold format. rewrite (format_length_eq _ _ _ H HZ). cbn [mbind res_bind].
  set (t := filled ps (map text args)) in *.
  rewrite set_length_ok by (unfold scap, str_new; cbn [sdata]; rewrite replicate_length; lia).
  cbn [mbind res_bind str_new sdata]. rewrite part_start.
  pose proof (write_fmt_appends fmt args [] fmt ps eq_refl H HZ) as W. fold t in W.
  change (length []) with 0 in W. rewrite W by (rewrite ?replicate_length; cbn [length]; lia).
  cbn [mbind res_bind]. rewrite part_done. cbn [fst snd]. rewrite Z.eqb_refl. done.
Qed.

Lemma format_mismatch fmt ps args :
  pieces fmt ps -> holes ps <> length args -> (Z.of_nat (length fmt) < 2 ^ 64)%Z ->
  format fmt args = Die.
Proof.
  intros H HZ B. unfold format, format_length.
  pose proof (parse_fmt_eq _ _ H [] (length fmt) (0, 0)) as P.
  cbn [app length] in P. rewrite P by lia. cbn [mbind res_bind fst snd Nat.add].
  destruct args as [|a args].
  - cbn [mbind res_bind].
    rewrite set_length_ok by (unfold scap, str_new; cbn [sdata]; rewrite replicate_length; lia).
    cbn [mbind res_bind str_new sdata write_fmt]. rewrite part_start.
    assert (lits ps <= length fmt) as L.
    { clear -H. induction H; unfold lits in *; cbn in *; lia. }
    pose proof (write_rest_hole _ _ H HZ [] (length fmt - 0) [] (replicate (lits ps) None)) as W.
    cbn [app length] in W. rewrite W; [done|lia|rewrite replicate_length; lia|rewrite replicate_length; lia].
  - rewrite (proj2 (Nat.eqb_neq _ _) HZ). done.
Qed.

(** ** concat *)
Lemma concat_loop_appends sep strings : forall q rest,
  strings <> [] ->
  length (join sep strings) = length rest -> (Z.of_nat (length q + length rest) < 2 ^ 64)%Z ->
  concat_loop sep (length q + length rest) strings (part q rest)
  = Ok (part (q ++ join sep strings) []).
Proof.
  induction strings as [|s [|s' ss] IH]; intros q rest N L B; [done| |].
  - cbn [join] in *. cbn [concat_loop].
    rewrite (appends_put s) by lia. cbn [mbind res_bind]. unfold part at 1. cbn [snd].
    rewrite app_length. destruct (Z.ltb_spec (Z.of_nat (length q + length s)) (Z.of_nat (length q + length rest))); [lia|].
    cbn [mbind res_bind]. rewrite drop_ge by lia. done.
  - change (join sep (s :: s' :: ss)) with (s ++ sep ++ join sep (s' :: ss)) in *.
    cbn [concat_loop]. rewrite !app_length in L.
    rewrite (appends_put s) by lia. cbn [mbind res_bind]. unfold part at 1. cbn [snd].
    destruct (Z.ltb_spec (Z.of_nat (length (q ++ s))) (Z.of_nat (length q + length rest))) as [C|C].
    + rewrite (appends_put sep) by (rewrite ?app_length, ?drop_length; lia). cbn [mbind res_bind].
      specialize (IH ((q ++ s) ++ sep) (drop (length sep) (drop (length s) rest))).
      assert (length ((q ++ s) ++ sep) + length (drop (length sep) (drop (length s) rest)) = length q + length rest) as EL.
      { rewrite !app_length, !drop_length. lia. }
      rewrite EL in IH. cbn [concat_loop] in IH. rewrite IH; [|done|rewrite !drop_length; lia|done].
      by rewrite <- !app_assoc.
    + rewrite app_length in C. cbn [mbind res_bind].
      assert (sep = []) as -> by (destruct sep; [done|cbn in L; lia]).
      specialize (IH (q ++ s) (drop (length s) rest)).
      assert (length (q ++ s) + length (drop (length s) rest) = length q + length rest) as EL.
      { rewrite !app_length, !drop_length. lia. }
      rewrite EL in IH. cbn [concat_loop] in IH. rewrite IH; [|done|rewrite !drop_length; cbn [length] in L; lia|done].
      rewrite <- !app_assoc. done.
Qed.
Lemma join_length sep strings :
  strings <> [] ->
  length (join sep strings)
  = foldr (fun s n => length (s : list Z) + n) 0 strings + length sep * (length strings - 1).
Proof.
  induction strings as [|s [|s' ss] IH]; [done|cbn; lia|]. intros _.
  change (join sep (s :: s' :: ss)) with (s ++ sep ++ join sep (s' :: ss)).
  rewrite !app_length, IH by done. cbn [foldr length].
  replace (S (S (length ss)) - 1) with (S (length ss)) by lia.
  replace (S (length ss) - 1) with (length ss) by lia. lia.
Qed.
Lemma concat_eq sep strings :
  (Z.of_nat (length (join sep strings)) < 2 ^ 64)%Z ->
  FormatModel.concat sep strings = Ok (mk_str (Some <$> join sep strings) (length (join sep strings))).
Proof.
  intros B. destruct (decide (strings = [])) as [->|N]; [done|].
  unfold FormatModel.concat. destruct strings as [|s ss]; [done|].
  set (strings := s :: ss) in *. rewrite <- join_length by done. set (t := join sep strings) in *.
  rewrite set_length_ok by (unfold scap, str_new; cbn [sdata]; rewrite replicate_length; lia).
  cbn [mbind res_bind str_new sdata]. rewrite part_start.
  pose proof (concat_loop_appends sep strings [] (replicate (length t) None) N) as W.
  cbn [app length Nat.add] in W. rewrite replicate_length in W. rewrite W by done.
  cbn [mbind res_bind]. unfold part. cbn [fst length]. rewrite app_nil_r, Nat.add_0_r. done.
Qed.

(** ** Decimal text *)
Lemma dec_digits_spec fuel : forall n acc, (0 <= n)%Z -> (n < 10 ^ Z.of_nat (S fuel))%Z ->
  exists t, dec_digits fuel n acc = t ++ acc /\ decimal t n /\ (hd_error t = Some 48%Z -> t = [48%Z]).
Proof.
  induction fuel as [|fuel IH]; intros n acc H1 H2; cbn [dec_digits].
  - change (10 ^ Z.of_nat 1)%Z with 10%Z in H2. rewrite Z.mod_small by lia.
    exists [48 + n]%Z. split; [done|]. split; [constructor; lia|]. cbn. intros [= E]. f_equal. lia.
  - pose proof (Z.div_mod n 10 ltac:(lia)) as D. pose proof (Z.mod_pos_bound n 10 ltac:(lia)) as M.
    destruct (Z.eqb_spec (n / 10) 0) as [E|E].
    + exists [48 + n mod 10]%Z. rewrite E in D.
      split; [done|]. split; [|cbn; intros [= X]; f_equal; lia].
      replace n with (n mod 10)%Z at 2 by lia. constructor. lia.
    + assert (0 <= n / 10)%Z by (apply Z.div_pos; lia).
      destruct (IH (n / 10)%Z ((48 + n mod 10) :: acc)%Z) as (t & -> & Dt & Hd).
      { lia. }
      { apply Z.div_lt_upper_bound; [lia|]. rewrite <- Z.pow_succ_r by lia.
        replace (Z.succ (Z.of_nat (S fuel))) with (Z.of_nat (S (S fuel))) by lia. done. }
      exists (t ++ [48 + n mod 10])%Z. rewrite <- app_assoc. split; [done|]. split.
      * replace n with (10 * (n / 10) + n mod 10)%Z at 2 by lia. constructor; [done|lia].
      * destruct (decimal_digits _ _ Dt) as (_ & Nt & V & _). destruct t as [|x t]; [done|]. cbn.
        intros [= ->]. specialize (Hd eq_refl). injection Hd as ->. exfalso. cbn in V. lia.
Qed.
Lemma dec_fuel n : (0 <= n)%Z -> (n < 10 ^ Z.of_nat (S (Z.to_nat (Z.log2 n))))%Z.
Proof.
  intros H. rewrite Nat2Z.inj_succ, Z2Nat.id by apply Z.log2_nonneg.
  destruct (decide (n = 0%Z)) as [->|]; [done|].
  eapply Z.lt_le_trans; [apply (Z.log2_spec n); lia|]. apply Z.pow_le_mono_l. pose proof (Z.log2_nonneg n). lia.
Qed.
Lemma dec_text_number x : number x (dec_text x).
Proof.
  unfold dec_text. destruct (Z.ltb_spec x 0) as [L|L].
  - destruct (dec_digits_spec (Z.to_nat (Z.log2 (- x))) (- x) [] ltac:(lia) (dec_fuel (- x) ltac:(lia))) as (t & -> & D & Z).
    rewrite app_nil_r. cbn. exists (- x)%Z. repeat split; [done|lia|lia|]. intros E. rewrite (Z E) in D.
    apply decimal_digits in D as (_ & _ & V & _). cbn in V. lia.
  - destruct (dec_digits_spec (Z.to_nat (Z.log2 x)) x [] L (dec_fuel x L)) as (t & -> & D & Z).
    rewrite app_nil_r. unfold number.
    assert (forall t', t <> 45%Z :: t') as N.
    { intros t' ->. apply decimal_digits in D as ([H _]%Forall_cons & _). unfold digit in H. lia. }
    destruct t as [|a t]; [done|].
    assert (a <> 45%Z) as Na by (intros ->; by eapply N).
    clear -D Z Na. destruct a as [|a|a]; try done. do 6 (destruct a as [a|a|]; try done).
Qed.
Lemma dec_text_int x : int_text (dec_text x) x.
Proof.
  unfold dec_text. destruct (Z.ltb_spec x 0) as [L|L].
  - destruct (dec_digits_spec (Z.to_nat (Z.log2 (- x))) (- x) [] ltac:(lia) (dec_fuel (- x) ltac:(lia))) as (t & -> & D & _).
    rewrite app_nil_r. pose proof (int_minus t (- x)%Z) as I. rewrite Z.opp_involutive in I. by apply I.
  - destruct (dec_digits_spec (Z.to_nat (Z.log2 x)) x [] L (dec_fuel x L)) as (t & -> & D & _).
    rewrite app_nil_r. by apply int_plain.
Qed.

(** ** Type names *)
Fixpoint split_fmt (fuel : nat) (r : list Z) : list piece :=
  match fuel, r with
  | S fuel, b :: r' =>
      if (b =? 37)%Z then
        match r' with
        | b' :: r'' => if (b' =? 37)%Z then Lit 37 :: split_fmt fuel r'' else Hole :: split_fmt fuel r'
        | [] => [Hole]
        end
      else Lit b :: split_fmt fuel r'
  | _, _ => []
  end.
Lemma pieces_split fuel : forall r, length r <= fuel -> pieces r (split_fmt fuel r).
Proof.
  induction fuel as [|fuel IH]; intros [|b r] L; cbn [length] in L; try lia; cbn [split_fmt]; try constructor.
  destruct (Z.eqb_spec b 37) as [->|N]; [|by constructor; [|apply IH; lia]].
  destruct r as [|b' r]; [constructor|]. cbn [length] in L.
  destruct (Z.eqb_spec b' 37) as [->|N']; [constructor; apply IH; lia|].
  constructor; [done|]. apply IH. cbn [length]. lia.
Qed.
Lemma format_s_eq fmt args t :
  holes (split_fmt (length (txt fmt)) (txt fmt)) = length args ->
  filled (split_fmt (length (txt fmt)) (txt fmt)) (map text args) = t ->
  (Z.of_nat (length t) < 2 ^ 64)%Z ->
  format_s fmt args = Ok t.
Proof.
  intros H <- B. unfold format_s. erewrite format_eq; [|by apply pieces_split|done|done].
  cbn [mbind res_bind]. apply str_view_full.
Qed.

Fixpoint type_ind (P : type_desc -> Prop)
  (h1 : forall n, P (TPlain n)) (h2 : forall t, P t -> P (TConst t)) (h3 : forall t, P t -> P (TVolatile t))
  (h4 : forall t, P t -> P (TConstVolatile t)) (h5 : forall t, P t -> P (TLref t)) (h6 : forall t, P t -> P (TRref t))
  (h7 : forall t, P t -> P (TPtr t)) (h8 : forall t n, P t -> P (TArr t n))
  (h9 : forall name ts, Forall P ts -> P (TApp name ts)) (h10 : forall name t n, P t -> P (TSized name t n))
  (h11 : forall r ts, P r -> Forall P ts -> P (TFun r ts)) (t : type_desc) {struct t} : P t :=
  let rec := type_ind P h1 h2 h3 h4 h5 h6 h7 h8 h9 h10 h11 in
  let all := fix all (ts : list type_desc) : Forall P ts :=
    match ts with [] => Forall_nil_2 P | t :: ts' => Forall_cons_2 P t ts' (rec t) (all ts') end in
  match t with
  | TPlain n => h1 n | TConst t => h2 t (rec t) | TVolatile t => h3 t (rec t) | TConstVolatile t => h4 t (rec t)
  | TLref t => h5 t (rec t) | TRref t => h6 t (rec t) | TPtr t => h7 t (rec t) | TArr t n => h8 t n (rec t)
  | TApp name ts => h9 name ts (all ts) | TSized name t n => h10 name t n (rec t)
  | TFun r ts => h11 r ts (rec r) (all ts)
  end.

Lemma all_names_eq ts :
  Forall (fun t => (Z.of_nat (length (type_text t)) < 2 ^ 64)%Z -> typename t = Ok (type_text t)) ts ->
  (Z.of_nat (length (commas (map type_text ts))) < 2 ^ 64)%Z ->
  all_names typename ts = Ok (map type_text ts).
Proof.
  unfold commas. induction 1 as [|t ts Ht Hts IH]; intros B; [done|]. cbn [all_names map].
  rewrite join_length in B by done. cbn [map foldr length] in B.
  rewrite Ht by lia. cbn [mbind res_bind]. rewrite IH; [done|].
  destruct ts as [|t' ts']; [done|]. rewrite join_length by done. cbn [map foldr length] in *. lia.
Qed.
Ltac name_len B := revert B; rewrite ?app_length; intros B; first [lia | cbn [length] in B; lia].
Ltac by_format :=
  apply format_s_eq; [reflexivity| |done];
  match goal with |- filled ?s _ = _ => let s' := eval vm_compute in s in change s with s' end;
  cbn [filled map text]; rewrite ?app_nil_r, <- ?app_assoc; reflexivity.
Lemma typename_eq t : (Z.of_nat (length (type_text t)) < 2 ^ 64)%Z -> typename t = Ok (type_text t).
Proof.
  induction t as [n|t IH|t IH|t IH|t IH|t IH|t IH|t n IH|name ts IH|name t n IH|r ts IHr IH] using type_ind;
    intros B; cbn [type_text] in B; cbn [type_text typename].
  - rewrite view_string_eq. cbn [mbind res_bind]. apply str_view_full.
  - rewrite IH by name_len B. cbn [mbind res_bind]. by_format.
  - rewrite IH by name_len B. cbn [mbind res_bind]. by_format.
  - rewrite IH by name_len B. cbn [mbind res_bind]. by_format.
  - rewrite IH by name_len B. cbn [mbind res_bind]. by_format.
  - rewrite IH by name_len B. cbn [mbind res_bind]. by_format.
  - rewrite IH by name_len B. cbn [mbind res_bind]. by_format.
  - rewrite IH by name_len B. cbn [mbind res_bind]. by_format.
  - assert (forall a, a = commas (map type_text ts) -> format_s "%<%>" [FView name; FString a]
      = Ok (name ++ txt "<" ++ commas (map type_text ts) ++ txt ">")) as F1.
    { intros a ->. by_format. }
    destruct ts as [|t1 [|t2 [|t3 ts]]].
    + cbn [all_names mbind res_bind]. rewrite concat_eq by done. cbn [mbind res_bind]. by apply F1.
    + apply Forall_cons in IH as [IH _]. cbn [map] in *. change (commas [type_text t1]) with (type_text t1) in *.
      rewrite IH by name_len B. cbn [mbind res_bind]. by apply F1.
    + apply Forall_cons in IH as [IH1 [IH2 _]%Forall_cons]. cbn [map] in *.
      change (commas [type_text t1; type_text t2]) with (type_text t1 ++ txt ", " ++ type_text t2) in *.
      rewrite IH1 by name_len B. cbn [mbind res_bind]. rewrite IH2 by name_len B. cbn [mbind res_bind].
      by_format.
    + set (l := t1 :: t2 :: t3 :: ts) in *.
      assert (Z.of_nat (length (commas (map type_text l))) < 2 ^ 64)%Z as C by name_len B.
      rewrite all_names_eq by done. cbn [mbind res_bind].
      rewrite concat_eq by exact C. cbn [mbind res_bind]. rewrite str_view_full. cbn [mbind res_bind]. by apply F1.
  - rewrite IH by name_len B. cbn [mbind res_bind]. by_format.
  - assert (Z.of_nat (length (commas (map type_text ts))) < 2 ^ 64)%Z as C by name_len B.
    rewrite IHr by name_len B. cbn [mbind res_bind].
    rewrite all_names_eq by done. cbn [mbind res_bind].
    rewrite concat_eq by exact C. cbn [mbind res_bind]. rewrite str_view_full. cbn [mbind res_bind]. by_format.
Qed.
