(** C98: floats are read from text and printed as text. *)
From Verif Require Import Word MathModel StringModel StringSpec StringProofs FormatModel FormatSpec FormatProofs FormatProps F32.
From Coq Require Import Reals Lra String.
From Flocq Require Import Core IEEE754.BinarySingleNaN IEEE754.Binary IEEE754.Bits.
From Verif Require Import FloatTextModel FloatTextSpec FloatTextProofs.
Local Open Scope nat_scope.

(** ** Reading *)
Lemma strtof_at ws t r neg v len : Forall blank ws -> starts_without blank (t ++ r) -> scan_signed (t ++ r) = Some (neg, v, len) ->
  strtof (ws ++ t ++ r) = (f32_of_scanned neg v, length ws + len).
Proof.
  intros Hw Hb E. rewrite strtof_eq. rewrite (count_while_app c_isspace blank ws) by (done || apply c_isspace_spec). cbv zeta. by rewrite drop_app, E.
Qed.
Lemma parse_at ws t r neg v : Forall blank ws -> t <> [] -> starts_without blank (t ++ r ++ [0%Z]) -> scan_signed (t ++ r ++ [0%Z]) = Some (neg, v, length t) ->
  parse_f32 (ws ++ t ++ r) = Ok (Some (f32_of_scanned neg v, r)).
Proof.
  intros Hw Nt Hb E. rewrite parse_f32_eq. rewrite <- !app_assoc. rewrite (strtof_at ws t (r ++ [0%Z]) neg v (length t)) by done.
  assert (length t <> 0) by (by destruct t). destruct (Nat.eqb_spec (length ws + length t) 0); [lia|].
  rewrite (app_assoc ws t r). rewrite view_sub_tail by (rewrite ?app_length; lia). done.
Qed.
(** What scanning takes never includes the terminating NUL. *)
Lemma scan_before_nul s neg v len : scan_signed (s ++ [0%Z]) = Some (neg, v, len) -> len <= length s /\ exists u, float_text (take len s) neg u /\ means v u.
Proof.
  intros E. destruct (signed_sound _ _ _ _ E) as [L (u & T & M)]. rewrite app_length in L. cbn in L.
  assert (len <= length s) as L'.
  { destruct (decide (len = length s + 1)) as [->|]; [|lia]. exfalso. rewrite take_ge in T by (rewrite app_length; cbn; lia). apply float_chars in T. apply Forall_app in T as [_ [T _]%Forall_cons]. lia. }
  split; [done|]. exists u. rewrite take_app_le in T by done. done.
Qed.
(** parse_f32 skips white space, takes the longest text that is a number, and gives the f32 nearest to it and all that
    follows. *)
Theorem parse_f32_longest : forall ws t neg v rest, Forall blank ws -> float_text t neg v ->
  (forall t' neg' v' rest', t ++ rest = t' ++ rest' -> float_text t' neg' v' -> length t' <= length t) ->
  exists x, parse_f32 (ws ++ t ++ rest) = Ok (Some (x, rest)) /\ nearest_f32 neg v x.
Proof.
  intros ws t neg v rest Hw T Lg. destruct (signed_complete t neg v (rest ++ [0%Z]) T) as (neg' & s & len & E & L1 & L2).
  destruct (float_first _ _ _ (rest ++ [0%Z]) T) as [Nt Hb].
  assert (len = length t) as ->.
  { pose proof E as E'. rewrite app_assoc in E'. destruct (scan_before_nul _ _ _ _ E') as [L3 (u & T' & _)].
    specialize (Lg _ _ _ (drop len (t ++ rest)) (eq_sym (take_drop len (t ++ rest))) T'). rewrite take_length in Lg. lia. }
  destruct (L2 eq_refl) as [-> M]. exists (f32_of_scanned neg s). split; [by apply parse_at|by apply means_nearest].
Qed.
(** If the text does not begin with a number the answer is nothing. *)
Theorem parse_f32_none : forall s, (forall ws t neg v rest, Forall blank ws -> float_text t neg v -> s <> ws ++ t ++ rest) -> parse_f32 s = Ok None.
Proof.
  intros s H. rewrite parse_f32_eq, strtof_eq. cbv zeta. set (w := count_while c_isspace (s ++ [0%Z])).
  assert (w <= length s) as Lw.
  { pose proof (count_while_le c_isspace (s ++ [0%Z]) : w <= _) as L. rewrite app_length in L. cbn in L. destruct (decide (w = length s + 1)) as [E|]; [|lia]. exfalso.
    pose proof (count_while_split c_isspace (s ++ [0%Z]) : Forall _ (take w _)) as F. rewrite take_ge in F by (rewrite app_length; cbn; lia). apply Forall_app in F as [_ [F _]%Forall_cons]. done. }
  rewrite drop_app_le by done. destruct (scan_signed (drop w s ++ [0%Z])) as [[[neg v] n]|] eqn:E; [|done]. exfalso.
  destruct (scan_before_nul _ _ _ _ E) as [L (u & T & _)]. eapply (H (take w s) _ _ _ (drop n (drop w s))); [|exact T|by rewrite !take_drop].
  pose proof (count_while_split c_isspace (s ++ [0%Z]) : Forall _ (take w _)) as F. rewrite take_app_le in F by done. eapply Forall_impl; [exact F|]. intros c. apply c_isspace_spec.
Qed.
(** Nothing is undefined, whatever the text; a longest number is there to be read whenever something is read. *)
Theorem parse_f32_total : forall s, parse_f32 s = Ok None \/ exists x ws t rest neg v, parse_f32 s = Ok (Some (x, rest)) /\ s = ws ++ t ++ rest /\ Forall blank ws /\
  float_text t neg v /\ nearest_f32 neg v x /\ forall t' neg' v' rest', t ++ rest = t' ++ rest' -> float_text t' neg' v' -> length t' <= length t.
Proof.
  intros s. rewrite parse_f32_eq, strtof_eq. cbv zeta. set (w := count_while c_isspace (s ++ [0%Z])).
  assert (w <= length s) as Lw.
  { pose proof (count_while_le c_isspace (s ++ [0%Z]) : w <= _) as L. rewrite app_length in L. cbn in L. destruct (decide (w = length s + 1)) as [E|]; [|lia]. exfalso.
    pose proof (count_while_split c_isspace (s ++ [0%Z]) : Forall _ (take w _)) as F. rewrite take_ge in F by (rewrite app_length; cbn; lia). apply Forall_app in F as [_ [F _]%Forall_cons]. done. }
  rewrite drop_app_le by done. destruct (scan_signed (drop w s ++ [0%Z])) as [[[neg v] n]|] eqn:E; [|by left]. right.
  destruct (scan_before_nul _ _ _ _ E) as [L (u & T & M)]. rewrite drop_length in L.
  destruct (float_first _ _ _ [] T) as [Nt _]. assert (n <> 0) by (by intros ->; rewrite take_0 in Nt). destruct (Nat.eqb_spec (w + n) 0); [lia|].
  exists (f32_of_scanned neg v), (take w s), (take n (drop w s)), (drop n (drop w s)), neg, u.
  assert (s = (take w s ++ take n (drop w s)) ++ drop n (drop w s)) as Es by (by rewrite <- app_assoc, !take_drop).
  split_and!.
  - rewrite Es at 1 2. rewrite view_sub_tail; [done|rewrite app_length, !take_length, drop_length; lia|done].
  - by rewrite app_assoc.
  - pose proof (count_while_split c_isspace (s ++ [0%Z]) : Forall _ (take w _)) as F. rewrite take_app_le in F by done. eapply Forall_impl; [exact F|]. intros c. apply c_isspace_spec.
  - done.
  - by apply means_nearest.
  - intros t' neg' v' rest' Et T'. rewrite take_drop in Et. destruct (signed_complete t' neg' v' (rest' ++ [0%Z]) T') as (? & ? & len & E' & L1 & _).
    rewrite app_assoc, <- Et, E in E'. rewrite take_length, drop_length. injection E' as -> -> ->. lia.
Qed.

(** ** Printing *)
(** A finite float of any width is printed with six decimals, rounded to the nearest millionth, an even one if two are. *)
Theorem format_float : forall prec emax (x : binary_float prec emax), is_finite prec emax x = true ->
  exists t n, text (float_value x) = minus (Bsign prec emax x) ++ t /\ six_decimals t n /\ n = ZnearestE (Rabs (B2R prec emax x) * 1000000).
Proof.
  intros prec emax [s|s|s pl H|s m e H] F; try done.
  - destruct (fixed_text_spec s 0 ltac:(lia)) as (t & E & S). exists t, 0%Z. split; [exact E|]. split; [done|]. cbn [B2R]. rewrite Rabs_R0, Rmult_0_l. symmetry. apply (Znearest_imp _ 0 0). rewrite Rminus_0_r, Rabs_R0. lra.
  - destruct (fixed_text_spec s (millionths m e) (millionths_nonneg m e)) as (t & E & S). exists t, (millionths m e). split; [exact E|]. split; [done|].
    rewrite millionths_spec. do 2 f_equal. cbn [B2R]. unfold F2R. cbn [Fnum Fexp]. rewrite Rabs_mult, (Rabs_pos_eq (bpow radix2 e)) by apply bpow_ge_0. f_equal.
    destruct s; cbn [cond_Zopp]; [change (- Zpos m)%Z with (Zneg m)|]; rewrite <- abs_IZR; done.
Qed.
Theorem format_float_special : forall prec emax s pl H,
  text (float_value (B754_infinity prec emax s)) = minus s ++ txt "inf" /\ text (float_value (B754_nan prec emax s pl H)) = minus s ++ txt "nan".
Proof. done. Qed.

(** ** Both *)
Definition no_longer (rest : list Z) : Prop := starts_without (fun c => digit c \/ c = 101 \/ c = 69)%Z rest.
Lemma pow_m6 n : (IZR n * powerRZ 10 (-6) = IZR n / 1000000)%R.
Proof. unfold Rdiv. f_equal. unfold powerRZ. f_equal. change (Pos.to_nat 6) with 6. cbn [pow]. lra. Qed.
Lemma parse_fixed neg t n rest : six_decimals t n -> no_longer rest -> parse_f32 ((minus neg ++ t) ++ rest) = Ok (Some (f32_of_scanned neg (SNum n 10 (-6)), rest)).
Proof.
  intros S R. pose proof (six_decimals_scan neg t n (rest ++ [0%Z]) S) as E.
  assert (float_text (minus neg ++ t) neg (Finite (IZR n * powerRZ 10 (-6)))) as T.
  { pose proof (six_decimals_text _ _ S) as U. destruct neg; by constructor. }
  destruct (float_first _ _ _ (rest ++ [0%Z]) T) as [N B]. apply (parse_at [] (minus neg ++ t) rest); [constructor|done|done|]. apply E. destruct rest; [|done]. cbn. unfold digit. lia.
Qed.
Lemma decimal_nonneg t n : decimal t n -> (0 <= n)%Z.
Proof. induction 1; lia. Qed.
Local Instance valid32 : Valid_exp (SpecFloat.fexp 24 128).
Proof. apply fexp_correct. reflexivity. Qed.
Lemma fmt_grid z : (16 <= z)%R -> fmt32 z -> exists j, z = (IZR j * bpow radix2 (-19))%R.
Proof.
  intros Hz F. unfold generic_format in F. set (e := cexp radix2 (SpecFloat.fexp 24 128) z) in *. set (m := Ztrunc (scaled_mantissa radix2 (SpecFloat.fexp 24 128) z)) in *. clearbody m.
  assert (-19 <= e)%Z as He.
  { unfold e, cexp, SpecFloat.fexp, SpecFloat.emin. assert (5 <= mag radix2 z)%Z; [|lia]. apply mag_ge_bpow. rewrite Rabs_pos_eq by lra. change (bpow radix2 (5 - 1)) with 16%R. done. }
  exists (m * 2 ^ (e + 19))%Z. rewrite F. unfold F2R. cbn [Fnum Fexp]. rewrite mult_IZR. change (2 ^ (e + 19))%Z with (Zpower radix2 (e + 19)). rewrite IZR_Zpower by lia. rewrite Rmult_assoc, <- bpow_plus. do 2 f_equal. lia.
Qed.
Lemma grid_gap a b : (16 <= a)%R -> fmt32 a -> fmt32 b -> (a < b)%R -> (bpow radix2 (-19) <= b - a)%R.
Proof.
  intros Ha Fa Fb L. destruct (fmt_grid a Ha Fa) as [j ->]. destruct (fmt_grid b ltac:(lra) Fb) as [k ->].
  assert (0 < bpow radix2 (-19))%R as P by apply bpow_gt_0. apply Rmult_lt_reg_r in L; [|done]. apply lt_IZR in L. assert (j + 1 <= k)%Z as L' by lia. apply IZR_le in L'. rewrite plus_IZR in L'. nra.
Qed.
Lemma nearest_back X : fmt32 X -> (exists k, X = IZR k / 64)%R \/ (16 <= X)%R -> rnd32 (IZR (ZnearestE (X * 1000000)) / 1000000) = X.
Proof.
  intros F C. assert ((exists k, X = IZR k / 64)%R -> rnd32 (IZR (ZnearestE (X * 1000000)) / 1000000) = X) as Ex.
  { intros [k E]. replace (ZnearestE (X * 1000000)) with (k * 15625)%Z.
    - rewrite mult_IZR. replace (IZR k * 15625 / 1000000)%R with X by (rewrite E; field). apply round_generic; [apply valid_rnd_N|done].
    - symmetry. apply Znearest_imp. rewrite E, mult_IZR. replace (_ - _)%R with 0%R by field. rewrite Rabs_R0. lra. }
  destruct C as [C|C]; [auto|]. destruct (Req_dec X 16) as [E16|N]; [apply Ex; exists 1024%Z; lra|].
  assert (16 < X)%R as C' by lra. pose proof (Znearest_half (fun x => negb (Z.even x)) (X * 1000000)) as H. set (n := IZR (ZnearestE (X * 1000000))) in *.
  assert (Rabs (n / 1000000 - X) <= / 2000000)%R as D.
  { replace (n / 1000000 - X)%R with (- ((X * 1000000 - n) * / 1000000))%R by field. rewrite Rabs_Ropp, Rabs_mult, (Rabs_pos_eq (/ 1000000)) by lra. lra. }
  apply Rabs_le_inv in D. assert (fmt32 16) as F16. { change 16%R with (bpow radix2 4). apply generic_format_bpow. unfold SpecFloat.fexp, SpecFloat.emin. lia. }
  assert (bpow radix2 (-19) = / 524288)%R as B19 by (cbn [bpow]; f_equal).
  apply Rle_antisym.
  - apply round_N_le_midp; [apply valid32|done|]. pose proof (grid_gap X (succ radix2 (SpecFloat.fexp 24 128) X) ltac:(lra) F (generic_format_succ _ _ _ F) (succ_gt_id _ _ X ltac:(apply Rgt_not_eq; lra))). lra.
  - apply round_N_ge_midp; [apply valid32|done|]. pose proof (pred_ge_gt radix2 (SpecFloat.fexp 24 128) 16 X F16 F C').
    pose proof (grid_gap (pred radix2 (SpecFloat.fexp 24 128) X) X ltac:(lra) (generic_format_pred _ _ _ F) F (pred_lt_id _ _ X ltac:(apply Rgt_not_eq; lra))). lra.
Qed.
Lemma signed_value (x : binary32) : is_finite 24 128 x = true -> B2R 24 128 x = (if Bsign 24 128 x then - Rabs (B2R 24 128 x) else Rabs (B2R 24 128 x))%R.
Proof.
  destruct x as [s|s|s pl H|s m e H]; try done; intros _.
  - cbn. destruct s; rewrite Rabs_R0; ring.
  - cbn [B2R Bsign]. unfold F2R. cbn [Fnum Fexp]. rewrite Rabs_mult, (Rabs_pos_eq (bpow radix2 e)) by apply bpow_ge_0.
    destruct s; cbn [cond_Zopp]; rewrite <- abs_IZR; [|done]. change (Z.abs (- Zpos m)) with (Zpos m). rewrite opp_IZR. ring.
Qed.
Lemma rnd_sign (s : bool) v : rnd32 (if s then - v else v) = (if s then - rnd32 v else rnd32 v)%R.
Proof. destruct s; [|done]. apply (round_NE_opp radix2). Qed.
(** Printing an f32 and parsing the text gives the same f32, bit for bit, if it is at least 16 in size or a multiple of
    1/64.  Missing: other floats, for which it is false. *)
Theorem float_text_roundtrip_partial : forall (x : binary32) rest, is_finite 24 128 x = true ->
  (exists k, B2R 24 128 x = IZR k / 64)%R \/ (16 <= Rabs (B2R 24 128 x))%R -> no_longer rest ->
  parse_f32 (text (float_value x) ++ rest) = Ok (Some (x, rest)).
Proof.
  intros x rest Fx C R. destruct (format_float 24 128 x Fx) as (t & n & -> & S & En). rewrite (parse_fixed _ _ _ _ S R). do 3 f_equal.
  pose proof (scanned_nearest (Bsign 24 128 x) n 10 (-6)) as Q. rewrite pow_m6 in Q.
  assert (fmt32 (Rabs (B2R 24 128 x))) as FA by (apply generic_format_abs, generic_format_B2R).
  assert (rnd32 (IZR n / 1000000) = Rabs (B2R 24 128 x)) as E.
  { rewrite En. apply nearest_back; [done|]. destruct C as [[k C]|C]; [|by right]. left. exists (Z.abs k). rewrite C. unfold Rdiv. rewrite Rabs_mult, <- abs_IZR, (Rabs_pos_eq (/ 64)) by lra. done. }
  assert (0 <= n)%Z as Hn. { destruct S as (i & f & _ & _ & D & _). by apply decimal_nonneg in D. }
  specialize (Q Hn ltac:(lia)). cbn [nearest_f32] in Q. rewrite rnd_sign, E, <- (signed_value x Fx) in Q.
  rewrite Rlt_bool_true in Q by apply abs_B2R_lt_emax. destruct Q as (Q1 & Q2 & Q3). by apply B2R_Bsign_inj.
Qed.
(** For every f32 what comes back differs by less than a millionth. *)
Theorem float_text_error : forall (x : binary32) rest, is_finite 24 128 x = true -> no_longer rest ->
  exists y, parse_f32 (text (float_value x) ++ rest) = Ok (Some (y, rest)) /\ is_finite 24 128 y = true /\ (Rabs (B2R 24 128 y - B2R 24 128 x) <= / 1000000)%R.
Proof.
  intros x rest Fx R. destruct (Rle_lt_dec 16 (Rabs (B2R 24 128 x))) as [B|B].
  { exists x. split; [apply float_text_roundtrip_partial; auto|]. split; [done|]. replace (_ - _)%R with 0%R by ring. rewrite Rabs_R0. lra. }
  destruct (format_float 24 128 x Fx) as (t & n & -> & S & En). rewrite (parse_fixed _ _ _ _ S R). eexists. split; [done|].
  assert (0 <= n)%Z as Hn. { destruct S as (i & f & _ & _ & D & _). by apply decimal_nonneg in D. }
  pose proof (scanned_nearest (Bsign 24 128 x) n 10 (-6) Hn ltac:(lia)) as Q. rewrite pow_m6 in Q. cbn [nearest_f32] in Q. rewrite rnd_sign in Q.
  set (X := Rabs (B2R 24 128 x)) in *. assert (fmt32 X) as FX by (apply generic_format_abs, generic_format_B2R). assert (0 <= X)%R as PX by apply Rabs_pos.
  pose proof (Znearest_half (fun x => negb (Z.even x)) (X * 1000000)) as H. rewrite <- En in H.
  assert (Rabs (IZR n / 1000000 - X) <= / 2000000)%R as D.
  { replace (IZR n / 1000000 - X)%R with (- ((X * 1000000 - IZR n) * / 1000000))%R by field. rewrite Rabs_Ropp, Rabs_mult, (Rabs_pos_eq (/ 1000000)) by lra. lra. }
  destruct (round_N_pt radix2 (SpecFloat.fexp 24 128) (fun x => negb (Z.even x)) (IZR n / 1000000)) as [_ Nr]. specialize (Nr X FX). fold (rnd32 (IZR n / 1000000)) in Nr.
  change (round radix2 (SpecFloat.fexp 24 128) ZnearestE (IZR n / 1000000)) with (rnd32 (IZR n / 1000000)) in Nr. set (Y := rnd32 (IZR n / 1000000)) in *.
  rewrite (Rabs_minus_sym X) in Nr. assert (Rabs (Y - X) <= / 1000000)%R as YX.
  { replace (Y - X)%R with ((Y - IZR n / 1000000) + (IZR n / 1000000 - X))%R by ring. eapply Rle_trans; [apply Rabs_triang|]. lra. }
  assert (Rabs (if Bsign 24 128 x then - Y else Y) < bpow radix2 128)%R as Fin.
  { replace (Rabs (if Bsign 24 128 x then - Y else Y)) with (Rabs Y) by (destruct (Bsign 24 128 x); [by rewrite Rabs_Ropp|done]).
    apply Rle_lt_trans with 32%R; [|change 32%R with (bpow radix2 5); apply bpow_lt; lia]. apply Rabs_le_inv in YX. apply Rabs_le. lra. }
  rewrite Rlt_bool_true in Q by done. destruct Q as (Q1 & Q2 & Q3). split; [done|]. rewrite Q2, (signed_value x Fx). fold X. destruct (Bsign 24 128 x); [|done].
  replace (- Y - - X)%R with (- (Y - X))%R by ring. by rewrite Rabs_Ropp.
Qed.
(** Below 16 neighbouring floats can have the same text, and a small one prints as zero. *)
Theorem float_text_roundtrip_refuted :
  (exists x y : binary32, x <> y /\ is_finite 24 128 x = true /\ is_finite 24 128 y = true /\ text (float_value x) = text (float_value y)) /\
  exists x : binary32, text (float_value x) = txt "0.000000" /\ bits_of_b32 x <> 0%Z /\ parse_f32 (text (float_value x)) = Ok (Some (B754_zero 24 128 false, [])).
Proof.
  split.
  - exists (b32_of_bits 1090519050), (b32_of_bits 1090519051). split; [intros E; apply (f_equal bits_of_b32) in E; by vm_compute in E|]. split_and!; by vm_compute.
  - exists (b32_of_bits 1). split_and!; by vm_compute.
Qed.
(** The other special texts. *)
Theorem float_text_special : forall s pl H, exists y,
  parse_f32 (text (float_value (B754_infinity 24 128 s))) = Ok (Some (B754_infinity 24 128 s, [])) /\
  parse_f32 (text (float_value (B754_nan 24 128 s pl H))) = Ok (Some (y, [])) /\ is_nan 24 128 y = true.
Proof. intros [] pl H; eexists; split_and!; [by vm_compute|reflexivity|done|by vm_compute|reflexivity|done]. Qed.

(** " -1.5e3x" begins with a number; so does "0x" with "0"; ".e5" does not. *)
Example parse_f32_ex :
  float_text (txt "-1.5e3") true (Finite (15 * powerRZ 10 (3 - 1))) /\
  match parse_f32 (txt " -1.5e3x"), parse_f32 (txt "0x"), parse_f32 (txt "0x.8p1"), parse_f32 (txt ".e5") with
  | Ok (Some (a, r)), Ok (Some (b, r')), Ok (Some (c, [])), Ok None => bits_of_b32 a = 3300622336%Z /\ r = txt "x" /\ bits_of_b32 b = 0%Z /\ r' = txt "x" /\ bits_of_b32 c = 1065353216%Z
  | _, _, _, _ => False
  end.
Proof.
  split; [|by vm_compute]. change (txt "-1.5e3") with (45%Z :: ([49] ++ 46 :: [53]) ++ [101; 51])%Z. constructor.
  apply (u_decimal _ 15 1 _ 3).
  - apply (m_point dec_digit 10 [49%Z] [53%Z] 15); [|done]. apply decimal_to_digits. apply (decimal_snoc [49%Z] 1 5); [apply (decimal_digit 1)|]; lia.
  - constructor; [by left|]. constructor. apply (decimal_digit 3). lia.
Qed.
Example float_text_ex : text (float_value (b32_of_bits 1120403457)) = txt "100.000008" /\ is_finite 24 128 (b32_of_bits 1120403457) = true.
Proof. split; by vm_compute. Qed.
Print Assumptions parse_f32_longest.
Print Assumptions parse_f32_none.
Print Assumptions parse_f32_total.
Print Assumptions format_float.
Print Assumptions format_float_special.
Print Assumptions float_text_roundtrip_partial.
Print Assumptions float_text_error.
Print Assumptions float_text_roundtrip_refuted.
Print Assumptions float_text_special.
