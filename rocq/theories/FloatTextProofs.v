(** Lemmas for FloatTextProps. *)
From Verif Require Import Word MathModel StringModel StringSpec StringProofs FormatModel FormatSpec FormatProofs F32.
From Coq Require Import Reals Lra String.
From Flocq Require Import Core Calc.Div Calc.Bracket IEEE754.BinarySingleNaN IEEE754.Binary IEEE754.Bits.
From Verif Require Import FloatTextModel FloatTextSpec.
Local Open Scope nat_scope.

(** ** Rounding *)
Lemma checked_spec neg z : valid_binary 24 128 z = true -> exists H, checked neg z = FF2B 24 128 z H.
Proof.
  unfold checked.
  assert (forall b (E : valid_binary 24 128 z = b), b = true -> exists H,
    match b as b return valid_binary 24 128 z = b -> binary32 with
    | true => fun H => FF2B 24 128 z H | false => fun _ => B754_zero 24 128 neg end E = FF2B 24 128 z H) as G.
  { intros [|] E; [eauto|done]. }
  intros H. by apply G.
Qed.
Lemma rnd32_0 : rnd32 0 = 0%R.
Proof. apply round_0. apply valid_rnd_N. Qed.
Lemma ratio_nearest neg num den : (0 <= num)%Z -> (0 < den)%Z -> nearest_f32 neg (Finite (IZR num / IZR den)) (f32_of_ratio neg num den).
Proof.
  intros Hn Hd. unfold f32_of_ratio. destruct (Z.eqb_spec num 0) as [->|N].
  - cbn [nearest_f32]. replace (0 / IZR den)%R with 0%R by (unfold Rdiv; ring).
    replace (if neg then (- 0)%R else 0%R) with 0%R by (destruct neg; ring). rewrite rnd32_0, Rabs_R0, Rlt_bool_true; [done|]. apply bpow_gt_0.
  - pose proof (Fdiv_core_correct radix2 num 0 den 0 (-149)) as C. destruct (Fdiv_core radix2 num 0 den 0 (-149)) as [m l].
    specialize (C ltac:(lia) Hd). unfold F2R in C. cbn [Fnum Fexp bpow] in C. rewrite !Rmult_1_r in C.
    assert (0 < IZR num / IZR den)%R as P. { apply Rdiv_lt_0_compat; apply IZR_lt; lia. }
    set (r := (IZR num / IZR den)%R) in *.
    set (x := (if neg then (- r)%R else r)).
    assert (Rlt_bool x 0 = neg) as Sx. { unfold x. destruct neg; [apply Rlt_bool_true|apply Rlt_bool_false]; lra. }
    assert (Rabs x = r) as Ax. { unfold x. destruct neg; rewrite ?Rabs_Ropp; apply Rabs_pos_eq; lra. }
    pose proof (binary_round_aux_correct' 24 128 eq_refl eq_refl mode_NE x m (-149) l) as B. rewrite Sx, Ax in B.
    destruct B as [V B]; [unfold x; destruct neg; lra|exact C|unfold cexp, SpecFloat.fexp, SpecFloat.emin; lia|].
    destruct (checked_spec neg _ V) as [H ->]. cbn [nearest_f32]. fold x.
    destruct (Rlt_bool (Rabs (rnd32 x)) (bpow radix2 128)).
    + destruct B as (B1 & B2 & B3). rewrite is_finite_FF2B, B2R_FF2B, Bsign_FF2B. done.
    + revert V H. rewrite B. cbn. intros V H. reflexivity.
Qed.
Lemma scanned_nearest neg n base p : (0 <= n)%Z -> (0 < base)%Z ->
  nearest_f32 neg (Finite (IZR n * powerRZ (IZR base) p)) (f32_of_scanned neg (SNum n base p)).
Proof.
  intros Hn Hb. cbn [f32_of_scanned]. destruct (Z.leb_spec 0 p) as [H|H].
  - replace (IZR n * powerRZ (IZR base) p)%R with (IZR (n * base ^ p) / IZR 1)%R; [apply ratio_nearest; [apply Z.mul_nonneg_nonneg; [lia|apply Z.pow_nonneg; lia]|lia]|].
    rewrite mult_IZR. replace (IZR (base ^ p)) with (powerRZ (IZR base) p); [field|].
    rewrite <- (Z2Nat.id p) by lia. rewrite <- pow_powerRZ, pow_IZR. done.
  - replace (IZR n * powerRZ (IZR base) p)%R with (IZR n / IZR (base ^ (- p)))%R; [apply ratio_nearest; [lia|apply Z.pow_pos_nonneg; lia]|].
    unfold Rdiv. f_equal. replace (IZR (base ^ (- p))) with (powerRZ (IZR base) (- p)).
    + by rewrite powerRZ_neg', Rinv_inv.
    + rewrite <- (Z2Nat.id (- p)) by lia. rewrite <- pow_powerRZ, pow_IZR. done.
Qed.

(** ** Digits *)
Lemma is_digit_dec c : is_digit c = true <-> exists d, dec_digit c d.
Proof. rewrite is_digit_spec. unfold digit, dec_digit. split; [intros; exists (c - 48)%Z; lia|intros (d & ? & ?); lia]. Qed.
Lemma is_hex_spec c : is_hex c = true <-> exists d, hex_digit c d.
Proof.
  unfold is_hex. rewrite !orb_true_iff, is_digit_dec, !andb_true_iff, !Z.leb_le. unfold hex_digit. split.
  - intros [[[d D]|H]|H]; [eauto|exists (c - 55)%Z; lia|exists (c - 87)%Z; lia].
  - intros (d & [D|(D & [-> | ->])]); [left; left; eauto|left; right; lia|right; lia].
Qed.
Lemma dec_val c d : dec_digit c d -> digit_val c = d.
Proof. unfold dec_digit, digit_val. intros [? ->]. destruct (Z.leb_spec (48 + d) 57); lia. Qed.
Lemma hex_val c d : hex_digit c d -> digit_val c = d.
Proof. intros [H|(H & K)]; [by apply dec_val|]. unfold digit_val. destruct (Z.leb_spec c 57); [lia|]. destruct (Z.leb_spec c 70); lia. Qed.
Lemma digits_val_snoc base t c : digits_val base (t ++ [c]) = (base * digits_val base t + digit_val c)%Z.
Proof. unfold digits_val. by rewrite fold_left_app. Qed.
Section base.
  Context (isd : Z -> bool) (is : Z -> Z -> Prop) (base : Z).
  Context (Hd : forall c, isd c = true <-> exists d, is c d) (Hv : forall c d, is c d -> digit_val c = d) (H46 : isd 46%Z = false).
  Lemma digits_facts t n : digits is base t n -> Forall (fun c => isd c = true) t /\ n = digits_val base t.
  Proof using Hd Hv.
    induction 1 as [|t n c d D [IH1 IH2] K]; [done|]. split.
    - apply Forall_app. split; [done|]. constructor; [apply Hd; eauto|done].
    - by rewrite digits_val_snoc, (Hv _ _ K), IH2.
  Qed.
  Lemma digits_make t : Forall (fun c => isd c = true) t -> digits is base t (digits_val base t).
  Proof using Hd Hv.
    induction t as [|c t IH] using rev_ind; intros F; [constructor|]. apply Forall_app in F as [F [K _]%Forall_cons].
    rewrite digits_val_snoc. apply Hd in K as [d K]. rewrite (Hv _ _ K). constructor; [by apply IH|done].
  Qed.
  Lemma count_app t r : Forall (fun c => isd c = true) t -> count_while isd (t ++ r) = length t + count_while isd r.
  Proof using Type. induction 1 as [|c t K F IH]; [done|]. cbn. rewrite K, IH. done. Qed.
  Lemma mantissa_complete m n k r : mantissa is base m n k ->
    exists ds k' len, scan_mantissa isd (m ++ r) = Some (ds, k', len) /\ length m <= len /\ len <= length (m ++ r) /\ (len = length m -> digits_val base ds = n /\ k' = k) /\
      (starts_without (fun c => isd c = true \/ c = 46%Z) r -> len = length m).
  Proof using Hd Hv H46.
    intros [t n' D N|i f n' D N]; apply digits_facts in D as [F ->].
    - unfold scan_mantissa. rewrite count_app, drop_app_ge by (done || lia). replace (length t + count_while isd r - length t) with (count_while isd r) by lia.
      assert (length t <> 0) by (by destruct t). pose proof (count_while_le isd r). rewrite app_length.
      destruct (drop (count_while isd r) r) as [|c s'] eqn:E.
      + destruct (Nat.eqb_spec (length t + count_while isd r) 0); [lia|]. do 3 eexists. split; [done|]. split_and!; [lia|lia| |].
        * intros L. rewrite take_app_le, take_ge by lia. done.
        * intros S. destruct r as [|x r]; [cbn; lia|]. cbn in S |- *. destruct (isd x); [tauto|lia].
      + apply (f_equal length) in E as L. rewrite drop_length in L. cbn in L.
        destruct (Z.eqb_spec c 46) as [->|N46].
        * destruct (Nat.eqb_spec (length t + count_while isd r + count_while isd s') 0); [lia|]. pose proof (count_while_le isd s'). do 3 eexists. split; [done|]. split_and!; [lia|lia|lia|].
          intros S. destruct r as [|x r]; [by destruct (count_while isd []) in E|]. cbn in S, E. destruct (isd x); [tauto|]. cbn in E. injection E as -> ->. tauto.
        * destruct (Nat.eqb_spec (length t + count_while isd r) 0); [lia|]. do 3 eexists. split; [done|]. split_and!; [lia|lia| |].
          -- intros L'. rewrite take_app_le, take_ge by lia. done.
          -- intros S. destruct r as [|x r]; [cbn; lia|]. cbn in S |- *. destruct (isd x); [tauto|lia].
    - apply Forall_app in F as [Fi Ff]. unfold scan_mantissa. rewrite <- app_assoc, count_app by done. cbn [app count_while]. rewrite H46, Nat.add_0_r, drop_app.
      rewrite Z.eqb_refl, count_app by done. assert (length i + length f <> 0) by (destruct i, f; done).
      pose proof (count_while_le isd r). destruct (Nat.eqb_spec (length i + (length f + count_while isd r)) 0); [lia|].
      do 3 eexists. split; [done|]. rewrite !app_length. cbn [length]. rewrite app_length. split_and!; [lia|lia| |].
      + intros L. rewrite take_app, take_app_le, take_ge by lia. split; [done|lia].
      + intros S. destruct r as [|x r]; [cbn; lia|]. cbn in S |- *. destruct (isd x); [tauto|lia].
  Qed.
  Lemma mantissa_sound s ds k len : scan_mantissa isd s = Some (ds, k, len) ->
    len <= length s /\ mantissa is base (take len s) (digits_val base ds) k.
  Proof using Hd Hv.
    unfold scan_mantissa. set (i := count_while isd s). pose proof (count_while_le isd s : i <= _) as Li. pose proof (count_while_split isd s : Forall _ (take i s)) as Fi.
    clearbody i. assert (length (take i s) = i) as Lt by (rewrite take_length; lia).
    assert (i <> 0 -> take i s <> []) as Ne. { intros N E. rewrite E in Lt. cbn in Lt. lia. }
    destruct (drop i s) as [|c s'] eqn:E.
    - destruct (Nat.eqb_spec i 0); [done|]. intros [= <- <- <-]. split; [done|]. constructor; [by apply digits_make|auto].
    - destruct (Z.eqb_spec c 46) as [->|N].
      + set (f := count_while isd s'). pose proof (count_while_le isd s' : f <= _) as Lf. pose proof (count_while_split isd s' : Forall _ (take f s')) as Ff. clearbody f.
        destruct (Nat.eqb_spec (i + f) 0); [done|]. intros [= <- <- <-].
        assert (s = take i s ++ 46%Z :: s') as Es by (by rewrite <- E, take_drop).
        assert (length (take f s') = f) as Lf' by (rewrite take_length; lia).
        split; [rewrite Es, app_length; cbn [length]; lia|].
        replace (take (i + 1 + f) s) with (take i s ++ 46%Z :: take f s').
        * rewrite <- Lf' at 3. constructor; [apply digits_make; by apply Forall_app|]. intros [E1 E2]%app_eq_nil. rewrite E1 in Lt. rewrite E2 in Lf'. cbn in *. lia.
        * rewrite Es at 2. rewrite take_app_ge by lia. rewrite Lt. replace (i + 1 + f - i) with (S f) by lia. done.
      + destruct (Nat.eqb_spec i 0); [done|]. intros [= <- <- <-]. split; [done|]. constructor; [by apply digits_make|auto].
  Qed.
End base.

(** ** Exponents *)
Lemma count_digits t n r : decimal t n -> count_while is_digit (t ++ r) = length t + count_while is_digit r /\ t <> [] /\ digits_value t = n.
Proof.
  intros (F & N & V & _)%decimal_digits. split_and!; [|done|done]. apply count_app. eapply Forall_impl; [exact F|]. cbn. intros c. apply is_digit_spec.
Qed.
Lemma exponent_complete a b e x r : exponent a b e x ->
  exists x' len, scan_exponent a b (e ++ r) = (x', len) /\ length e <= len /\ (e <> [] -> len = length e -> x' = x) /\ (len = 0 -> x' = 0%Z).
Proof.
  intros [|c t n Hc T].
  - destruct (scan_exponent a b r) as [x' len] eqn:E. exists x', len. split_and!; [done|cbn; lia|done|]. intros ->. revert E. unfold scan_exponent.
    destruct r as [|c s']; [by intros [= <-]|]. destruct (_ || _)%bool; [|by intros [= <-]]. destruct (scan_sign s') as [neg sgn]. destruct (_ =? 0); [by intros [= <-]|]. done.
  - cbn [app scan_exponent]. replace ((c =? a) || (c =? b))%Z%bool with true by (symmetry; apply orb_true_iff; rewrite !Z.eqb_eq; tauto).
    assert (exists neg sgn u y, scan_sign (t ++ r) = (neg, sgn) /\ drop sgn (t ++ r) = u ++ r /\ length t = sgn + length u /\ decimal u y /\ n = (if neg then - y else y)%Z) as (neg & sgn & u & y & E1 & E2 & E3 & D & E4).
    { destruct T as [u y D|u y D|u y D]; [|by exists false, 1, u, y|by exists true, 1, u, y].
      exists false, 0, u, y. split_and!; try done. pose proof (decimal_digits _ _ D) as (F & N & _). destruct u as [|c0 u]; [done|]. apply Forall_cons in F as [F _].
      unfold digit in F. cbn. destruct (Z.eqb_spec c0 45); [lia|]. destruct (Z.eqb_spec c0 43); [lia|]. done. }
    rewrite E1, E2. destruct (count_digits u y r D) as (C & N & V). rewrite C. assert (length u <> 0) by (by destruct u).
    destruct (Nat.eqb_spec (length u + count_while is_digit r) 0); [lia|]. do 2 eexists. split; [done|]. cbn [length]. rewrite E3. split_and!; [lia| |lia].
    intros _ L. rewrite take_app_le, take_ge by lia. by rewrite V, E4.
Qed.
Lemma exponent_sound a b s x len : scan_exponent a b s = (x, len) -> len <= length s /\ exponent a b (take len s) x.
Proof.
  unfold scan_exponent. destruct s as [|c s']; [intros [= <- <-]; split; [done|constructor]|].
  destruct ((c =? a) || (c =? b))%Z%bool eqn:K; [|intros [= <- <-]; split; [cbn; lia|constructor]].
  apply orb_true_iff in K. rewrite !Z.eqb_eq in K.
  destruct (scan_sign s') as [neg sgn] eqn:Sg. set (d := drop sgn s'). set (n := count_while is_digit d).
  pose proof (count_while_le is_digit d : n <= _) as L. pose proof (count_while_split is_digit d : Forall _ (take n d)) as F. clearbody n.
  destruct (Nat.eqb_spec n 0); [intros [= <- <-]; split; [cbn; lia|constructor]|]. intros [= <- <-].
  assert (decimal (take n d) (digits_value (take n d))) as D.
  { apply digits_decimal; [eapply Forall_impl; [exact F|]; cbn; intros z; apply is_digit_spec|]. intros E. apply (f_equal length) in E. rewrite take_length in E. cbn in E. lia. }
  assert (sgn <= 1 /\ sgn + length d = length s' /\ int_text (take (sgn + n) s') (if neg then - digits_value (take n d) else digits_value (take n d))%Z) as (L1 & L2 & T).
  { unfold scan_sign in Sg. subst d. destruct s' as [|c' s'].
    - injection Sg as <- <-. cbn in *. lia.
    - destruct (Z.eqb_spec c' 45) as [->|]; [|destruct (Z.eqb_spec c' 43) as [->|]]; injection Sg as <- <-; cbn in *; split_and!; try lia; by constructor. }
  cbn [length]. split; [lia|]. change (1 + sgn + n) with (S (sgn + n)). cbn [take]. by constructor.
Qed.

(** ** Words *)
Lemma lower_spec c w : (97 <= w <= 122)%Z -> lower c = w <-> same_letter w c.
Proof. intros Hw. unfold lower, same_letter. destruct (Z.leb_spec 65 c), (Z.leb_spec c 90); cbn; lia. Qed.
Lemma matches_spec w s : Forall (fun c => 97 <= c <= 122)%Z w -> matches w s = true <-> exists t r, s = t ++ r /\ word w t.
Proof.
  unfold word. revert s. induction w as [|c w IH]; intros s F; cbn [matches].
  - split; [intros _; exists [], s; split; [done|constructor]|done].
  - apply Forall_cons in F as [Fc F]. destruct s as [|b s].
    + split; [done|]. intros (t & r & E & W). apply Forall2_cons_inv_l in W as (? & ? & _ & _ & ->). done.
    + rewrite andb_true_iff, Z.eqb_eq, (lower_spec _ _ Fc), (IH s F). split.
      * intros (L & t & r & -> & W). exists (b :: t), r. split; [done|by constructor].
      * intros (t & r & E & W). apply Forall2_cons_inv_l in W as (? & t' & L & W & ->). injection E as -> ->. eauto.
Qed.
Lemma word_inf s : matches (txt "inf"%string) s = true <-> exists t r, s = t ++ r /\ word inf_word t.
Proof. apply (matches_spec inf_word). repeat (apply Forall_cons_2; [lia|]); apply Forall_nil_2. Qed.
Lemma word_infinity s : matches (txt "infinity"%string) s = true <-> exists t r, s = t ++ r /\ word infinity_word t.
Proof. apply (matches_spec infinity_word). repeat (apply Forall_cons_2; [lia|]); apply Forall_nil_2. Qed.
Lemma word_nan s : matches (txt "nan"%string) s = true <-> exists t r, s = t ++ r /\ word nan_word t.
Proof. apply (matches_spec nan_word). repeat (apply Forall_cons_2; [lia|]); apply Forall_nil_2. Qed.
Lemma matches_0x s : matches (txt "0x"%string) s = true <-> exists c r, s = 48%Z :: c :: r /\ (c = 120 \/ c = 88)%Z.
Proof.
  change (txt "0x"%string) with [48; 120]%Z. destruct s as [|a [|c r]]; cbn [matches].
  - split; [done|]. by intros (? & ? & ? & _).
  - rewrite andb_false_r. split; [done|]. by intros (? & ? & ? & _).
  - rewrite andb_true_r, andb_true_iff, !Z.eqb_eq. unfold lower. split.
    + intros [A C]. exists c, r. split; [|destruct (Z.leb_spec 65 c), (Z.leb_spec c 90); cbn in C; lia]. f_equal. destruct (Z.leb_spec 65 a), (Z.leb_spec a 90); cbn in A; lia.
    + intros (? & ? & [= -> -> ->] & [-> | ->]); done.
Qed.
Lemma is_nchar_spec c : is_nchar c = true <-> nchar c.
Proof.
  unfold is_nchar, nchar, lower, digit. rewrite !orb_true_iff, is_digit_spec; unfold digit; rewrite andb_true_iff, !Z.leb_le, Z.eqb_eq. destruct (Z.leb_spec 65 c), (Z.leb_spec c 90); cbn; lia.
Qed.
Lemma nan_complete cs r : Forall nchar cs -> scan_nan ([40%Z] ++ cs ++ [41%Z] ++ r) = length cs + 2.
Proof.
  intros F. unfold scan_nan. cbn [app]. change (40 =? 40)%Z with true. cbv iota. rewrite count_app.
  - cbn [count_while]. change (is_nchar 41) with false. cbv iota. rewrite Nat.add_0_r, drop_app. done.
  - eapply Forall_impl; [exact F|]. intros c. apply is_nchar_spec.
Qed.
Lemma nan_sound s : scan_nan s = 0 \/ exists cs r, s = [40%Z] ++ cs ++ [41%Z] ++ r /\ Forall nchar cs /\ scan_nan s = length cs + 2.
Proof.
  destruct s as [|c s']; [by left|]. destruct (decide (c = 40%Z)) as [->|N].
  - set (n := count_while is_nchar s'). pose proof (count_while_split is_nchar s') as F. destruct (drop n s') as [|c r] eqn:E.
    + left. unfold scan_nan. change (40 =? 40)%Z with true. cbv iota. fold n. by rewrite E.
    + destruct (decide (c = 41%Z)) as [->|N].
      * right. assert (s' = take n s' ++ 41%Z :: r) as Es by (by rewrite <- E, take_drop). exists (take n s'), r. cbn [app]. split; [by f_equal|].
        assert (Forall nchar (take n s')) as F'. { eapply Forall_impl; [exact F|]. intros c. apply is_nchar_spec. }
        split; [done|]. rewrite Es at 1. by apply (nan_complete (take n s') r).
      * left. unfold scan_nan. change (40 =? 40)%Z with true. cbv iota. fold n. rewrite E. destruct (Z.eqb_spec c 41); done.
  - left. unfold scan_nan. destruct (Z.eqb_spec c 40); done.
Qed.

(** ** Whole numbers *)
Definition means (v : scanned) (u : value) : Prop :=
  match v, u with
  | SNum n base p, Finite x => (0 <= n)%Z /\ (0 < base)%Z /\ x = (IZR n * powerRZ (IZR base) p)%R
  | SInf, Infinite => True
  | SNan, Nan => True
  | _, _ => False
  end.
Lemma means_nearest neg v u : means v u -> nearest_f32 neg u (f32_of_scanned neg v).
Proof.
  destruct v, u; try done.
  - intros (? & ? & ->). by apply scanned_nearest.
Qed.
Lemma digits_val_nonneg base t : (0 <= base)%Z -> Forall (fun c => 48 <= c)%Z t -> Forall (fun c => 0 <= digit_val c)%Z t -> (0 <= digits_val base t)%Z.
Proof.
  intros B _. induction t as [|c t IH] using rev_ind; [done|]. intros [F [K _]%Forall_cons]%Forall_app. rewrite digits_val_snoc. specialize (IH F). nia.
Qed.
Lemma mantissa_nonneg (is : Z -> Z -> Prop) base m n k : (0 <= base)%Z -> (forall c d, is c d -> 0 <= d)%Z -> mantissa is base m n k -> (0 <= n)%Z.
Proof.
  intros B P M. assert (forall t n, digits is base t n -> (0 <= n)%Z) as D. { induction 1 as [|t x c d D IH K]; [done|]. apply P in K. nia. }
  destruct M; eauto.
Qed.
Lemma dec_nonneg c d : dec_digit c d -> (0 <= d)%Z.
Proof. intros [? _]. lia. Qed.
Lemma hex_nonneg c d : hex_digit c d -> (0 <= d)%Z.
Proof. intros [H|[? _]]; [by eapply dec_nonneg|lia]. Qed.
Lemma decimal_complete m n k e x r : mantissa dec_digit 10 m n k -> exponent 101 69 e x ->
  exists v len, scan_decimal ((m ++ e) ++ r) = Some (v, len) /\ length (m ++ e) <= len /\ (len = length (m ++ e) -> means v (Finite (IZR n * powerRZ 10 (x - Z.of_nat k)))).
Proof.
  intros M X. unfold scan_decimal. rewrite <- app_assoc.
  destruct (mantissa_complete is_digit dec_digit 10 is_digit_dec dec_val eq_refl m n k (e ++ r) M) as (ds & k' & len & -> & L1 & L2 & L3 & L4).
  pose proof (mantissa_nonneg _ 10 _ _ _ ltac:(lia) dec_nonneg M) as P. rewrite app_length.
  destruct e as [|c e].
  - destruct (scan_exponent 101 69 (drop len (m ++ [] ++ r))) as [x' el] eqn:E. do 2 eexists. split; [done|]. cbn [length]. split; [lia|]. intros L.
    destruct (L3 ltac:(lia)) as [-> ->]. assert (len = length m) as -> by lia. assert (el = 0) as -> by lia. rewrite drop_app in E. cbn [app] in E.
    destruct (exponent_complete 101 69 [] 0 r (e_none _ _)) as (x2 & l2 & E2 & _ & _ & Z0). cbn [app] in E2. rewrite E in E2. injection E2 as <- <-. rewrite (Z0 eq_refl).
    inversion X; subst. split_and!; [done|done|reflexivity].
  - assert (len = length m) as ->. { apply L4. cbn. inversion X; subst. intros [D|D]; [|lia]. apply is_digit_spec in D. unfold digit in D. lia. }
    rewrite drop_app. destruct (exponent_complete 101 69 (c :: e) x r X) as (x2 & l2 & -> & L5 & L6 & _). do 2 eexists. split; [done|]. split; [lia|]. intros L.
    destruct (L3 eq_refl) as [-> ->]. rewrite (L6 ltac:(done) ltac:(lia)). split_and!; [done|done|reflexivity].
Qed.
Lemma decimal_sound s v len : scan_decimal s = Some (v, len) -> len <= length s /\ exists u, unsigned_text (take len s) u /\ means v u.
Proof.
  unfold scan_decimal. destruct (scan_mantissa is_digit s) as [[[ds k] l1]|] eqn:M; [|done]. destruct (mantissa_sound is_digit dec_digit 10 is_digit_dec dec_val _ _ _ _ M) as [L1 M'].
  destruct (scan_exponent 101 69 (drop l1 s)) as [x l2] eqn:E. intros [= <- <-]. destruct (exponent_sound _ _ _ _ _ E) as [L2 X]. rewrite drop_length in L2. split; [lia|].
  pose proof (mantissa_nonneg _ 10 _ _ _ ltac:(lia) dec_nonneg M') as P.
  exists (Finite (IZR (digits_val 10 ds) * powerRZ 10 (x - Z.of_nat k))). split; [|split_and!; [done|done|reflexivity]].
  replace (take (l1 + l2) s) with (take l1 s ++ take l2 (drop l1 s)); [by constructor|]. rewrite <- (take_drop l1 s) at 3. rewrite take_app_ge by (rewrite take_length; lia). rewrite take_length. do 2 f_equal. lia.
Qed.
Lemma hex_complete c m n k e x r : mantissa hex_digit 16 m n k -> exponent 112 80 e x ->
  exists v len, scan_hex (48%Z :: c :: (m ++ e) ++ r) = Some (v, len) /\ 2 + length (m ++ e) <= len /\ (len = 2 + length (m ++ e) -> means v (Finite (IZR n * powerRZ 2 (x - 4 * Z.of_nat k)))).
Proof.
  intros M X. unfold scan_hex. change (drop 2 (48%Z :: c :: (m ++ e) ++ r)) with ((m ++ e) ++ r). rewrite <- app_assoc.
  destruct (mantissa_complete is_hex hex_digit 16 is_hex_spec hex_val eq_refl m n k (e ++ r) M) as (ds & k' & len & -> & L1 & L2 & L3 & L4).
  pose proof (mantissa_nonneg _ 16 _ _ _ ltac:(lia) hex_nonneg M) as P. rewrite app_length.
  destruct e as [|b e].
  - destruct (scan_exponent 112 80 (drop len (m ++ [] ++ r))) as [x' el] eqn:E. do 2 eexists. split; [done|]. cbn [length]. split; [lia|]. intros L.
    destruct (L3 ltac:(lia)) as [-> ->]. assert (len = length m) as -> by lia. assert (el = 0) as -> by lia. rewrite drop_app in E. cbn [app] in E.
    destruct (exponent_complete 112 80 [] 0 r (e_none _ _)) as (x2 & l2 & E2 & _ & _ & Z0). cbn [app] in E2. rewrite E in E2. injection E2 as <- <-. rewrite (Z0 eq_refl).
    inversion X; subst. split_and!; [done|done|reflexivity].
  - assert (len = length m) as ->. { apply L4. cbn. inversion X; subst. intros [D|D]; [|lia]. apply is_hex_spec in D as [d [[? ->]|(? & ?)]]; lia. }
    rewrite drop_app. destruct (exponent_complete 112 80 (b :: e) x r X) as (x2 & l2 & -> & L5 & L6 & _). do 2 eexists. split; [done|]. split; [lia|]. intros L.
    destruct (L3 eq_refl) as [-> ->]. rewrite (L6 ltac:(done) ltac:(lia)). split_and!; [done|done|reflexivity].
Qed.
Lemma hex_sound c s v len : (c = 120 \/ c = 88)%Z -> scan_hex (48%Z :: c :: s) = Some (v, len) -> 3 <= len <= 2 + length s /\ exists u, unsigned_text (take len (48%Z :: c :: s)) u /\ means v u.
Proof.
  intros C. unfold scan_hex. change (drop 2 (48%Z :: c :: s)) with s. destruct (scan_mantissa is_hex s) as [[[ds k] l1]|] eqn:M; [|done]. destruct (mantissa_sound is_hex hex_digit 16 is_hex_spec hex_val _ _ _ _ M) as [L1 M'].
  destruct (scan_exponent 112 80 (drop l1 s)) as [x l2] eqn:E. intros [= <- <-]. destruct (exponent_sound _ _ _ _ _ E) as [L2 X]. rewrite drop_length in L2.
  assert (l1 <> 0). { intros ->. cbn in M'. inversion M'; subst; [done|]. destruct i; done. }
  split; [lia|].
  pose proof (mantissa_nonneg _ 16 _ _ _ ltac:(lia) hex_nonneg M') as P.
  exists (Finite (IZR (digits_val 16 ds) * powerRZ 2 (x - 4 * Z.of_nat k))). split; [|split_and!; [done|done|reflexivity]].
  replace (2 + l1 + l2) with (S (S (l1 + l2))) by lia. cbn [take].
  replace (take (l1 + l2) s) with (take l1 s ++ take l2 (drop l1 s)); [by constructor|]. rewrite <- (take_drop l1 s) at 3. rewrite take_app_ge by (rewrite take_length; lia). rewrite take_length. do 2 f_equal. lia.
Qed.

Lemma matches_first w ws c s : (lower c =? w)%Z = false -> matches (w :: ws) (c :: s) = false.
Proof. intros H. cbn [matches]. by rewrite H. Qed.
Lemma not_words c s : (c < 65)%Z -> matches (txt "infinity"%string) (c :: s) = false /\ matches (txt "inf"%string) (c :: s) = false /\ matches (txt "nan"%string) (c :: s) = false.
Proof.
  intros H. assert (lower c = c) as E. { unfold lower. destruct (Z.leb_spec 65 c); [lia|done]. }
  change (txt "infinity"%string) with infinity_word; change (txt "inf"%string) with inf_word; change (txt "nan"%string) with nan_word. split_and!; apply matches_first; rewrite E; apply Z.eqb_neq; lia.
Qed.
(** The characters of numbers. *)
Lemma digits_chars (is : Z -> Z -> Prop) base t n : digits is base t n -> Forall (fun c => exists d, is c d) t.
Proof. induction 1 as [|t n c d D IH K]; [done|]. apply Forall_app. split; [done|]. constructor; [eauto|done]. Qed.
Lemma mantissa_chars is base m n k : mantissa is base m n k -> Forall (fun c => (exists d, is c d) \/ c = 46%Z) m.
Proof.
  intros [t n' D _|i f n' D _]; apply digits_chars in D.
  - eapply Forall_impl; [exact D|]. cbn. tauto.
  - apply Forall_app in D as [D1 D2]. apply Forall_app. split; [|constructor; [by right|]].
    + eapply Forall_impl; [exact D1|]. cbn. tauto.
    + eapply Forall_impl; [exact D2|]. cbn. tauto.
Qed.
Lemma mantissa_nonempty is base m n k : mantissa is base m n k -> m <> [].
Proof. intros [|i f]; [done|]. by destruct i. Qed.
Lemma exponent_chars a b e x : exponent a b e x -> Forall (fun c => c = a \/ c = b \/ c = 43%Z \/ c = 45%Z \/ digit c) e.
Proof.
  intros [|c t n C T]; [constructor|]. constructor; [tauto|]. assert (forall t n, decimal t n -> Forall (fun c => c = a \/ c = b \/ c = 43%Z \/ c = 45%Z \/ digit c) t) as D.
  { intros t' n' (F & _)%decimal_digits. eapply Forall_impl; [exact F|]. cbn. tauto. }
  destruct T; [|constructor; [tauto|]..]; eauto.
Qed.
Lemma unsigned_chars t u : unsigned_text t u -> Forall (fun c => 40 <= c)%Z t.
Proof.
  assert (forall w t, Forall (fun c => 97 <= c)%Z w -> word w t -> Forall (fun c => 40 <= c)%Z t) as W.
  { intros w t' F H. induction H as [|a b w t' L H IH]; [constructor|]. apply Forall_cons in F as [Fa F]. constructor; [|by apply IH]. unfold same_letter in L. lia. }
  intros [m n k e x M X|c m n k e x C M X|t' [H|H]|t' H|t' cs H F].
  - apply Forall_app. split; [eapply Forall_impl; [by eapply mantissa_chars|]|eapply Forall_impl; [by eapply exponent_chars|]]; cbn; unfold dec_digit, digit.
    + intros c [(d & ? & ?)|?]; lia.
    + lia.
  - constructor; [lia|]. constructor; [lia|]. apply Forall_app. split; [eapply Forall_impl; [by eapply mantissa_chars|]|eapply Forall_impl; [by eapply exponent_chars|]]; cbn; unfold hex_digit, dec_digit, digit.
    + intros b [(d & [?|?])|?]; lia.
    + lia.
  - eapply W; [|exact H]. repeat (apply Forall_cons_2; [lia|]); apply Forall_nil_2.
  - eapply W; [|exact H]. repeat (apply Forall_cons_2; [lia|]); apply Forall_nil_2.
  - eapply W; [|exact H]. repeat (apply Forall_cons_2; [lia|]); apply Forall_nil_2.
  - apply Forall_app. split; [eapply W; [|exact H]; repeat (apply Forall_cons_2; [lia|]); apply Forall_nil_2|].
    constructor; [lia|]. apply Forall_app. split; [|repeat constructor; lia]. eapply Forall_impl; [exact F|]. cbn. unfold nchar, digit. lia.
Qed.
Lemma unsigned_first t u : unsigned_text t u -> exists c t', t = c :: t' /\ c <> 43%Z /\ c <> 45%Z /\ ~ blank c.
Proof.
  assert (forall w t, word w t -> w <> [] -> Forall (fun c => 97 <= c)%Z w -> exists c t', t = c :: t' /\ (65 <= c)%Z) as W.
  { intros w t' [|a b w' t'' L H] N F; [done|]. apply Forall_cons in F as [F _]. exists b, t''. split; [done|]. unfold same_letter in L. lia. }
  assert (forall (c : Z) t', (65 <= c)%Z -> exists c0 t'', c :: t' = c0 :: t'' /\ c0 <> 43%Z /\ c0 <> 45%Z /\ ~ blank c0) as G.
  { intros c t' H. exists c, t'. unfold blank. split_and!; [done|lia..]. }
  assert (forall w, Forall (fun c => 97 <= c)%Z w -> w <> [] -> forall t r, word w t -> exists c t', t ++ r = c :: t' /\ c <> 43%Z /\ c <> 45%Z /\ ~ blank c) as WW.
  { intros w F N t' r H. destruct (W w t' H N F) as (c & t'' & -> & L). by apply G. }
  intros [m n k e x M X|c m n k e x C M X|t' [H|H]|t' H|t' cs H F].
  - pose proof (mantissa_nonempty _ _ _ _ _ M) as N. pose proof (mantissa_chars _ _ _ _ _ M) as F. destruct m as [|c m]; [done|]. apply Forall_cons in F as [F _].
    exists c, (m ++ e). split; [done|]. unfold dec_digit, blank in *. destruct F as [(d & ? & ?)|?]; lia.
  - exists 48%Z, (c :: m ++ e). unfold blank. split_and!; [done|lia..].
  - rewrite <- (app_nil_r t'). eapply WW; [| |exact H]; [repeat (apply Forall_cons_2; [lia|]); apply Forall_nil_2|done].
  - rewrite <- (app_nil_r t'). eapply WW; [| |exact H]; [repeat (apply Forall_cons_2; [lia|]); apply Forall_nil_2|done].
  - rewrite <- (app_nil_r t'). eapply WW; [| |exact H]; [repeat (apply Forall_cons_2; [lia|]); apply Forall_nil_2|done].
  - eapply WW; [| |exact H]; [repeat (apply Forall_cons_2; [lia|]); apply Forall_nil_2|done].
Qed.
Lemma nan_not_inf t r : word nan_word t -> matches (txt "infinity"%string) (t ++ r) = false /\ matches (txt "inf"%string) (t ++ r) = false.
Proof. intros H. apply Forall2_cons_inv_l in H as (c & t' & L & _ & ->). cbn [app]. apply lower_spec in L; [|lia]. change (txt "infinity"%string) with infinity_word; change (txt "inf"%string) with inf_word; change (txt "nan"%string) with nan_word. split; apply matches_first; by rewrite L. Qed.
Lemma unsigned_complete t u r : unsigned_text t u ->
  exists v len, scan_unsigned (t ++ r) = Some (v, len) /\ length t <= len /\ (len = length t -> means v u).
Proof.
  intros [m n k e x M X|c m n k e x C M X|t' [H|H]|t' H|t' cs H F].
  - destruct (decimal_complete m n k e x r M X) as (v & len & D & L1 & L2).
    pose proof (mantissa_nonempty _ _ _ _ _ M) as N. pose proof (mantissa_chars _ _ _ _ _ M) as Fm. pose proof (exponent_chars _ _ _ _ X) as Fe.
    assert (Forall (fun c => c <> 120 /\ c <> 88)%Z (m ++ e)) as Fc.
    { apply Forall_app. split; (eapply Forall_impl; [eassumption|]); cbn; unfold dec_digit, digit; [intros c [(d & ? & ?)|?]; lia|lia]. }
    assert (exists c0 t0, m ++ e = c0 :: t0 /\ (c0 < 65)%Z) as (c0 & t0 & E0 & L0).
    { destruct m as [|c0 m]; [done|]. exists c0, (m ++ e). split; [done|]. apply Forall_cons in Fm as [[(d & ? & ?)|?] _]; lia. }
    rewrite E0 in *. cbn [app] in *. unfold scan_unsigned. destruct (not_words c0 (t0 ++ r) L0) as (-> & -> & ->).
    destruct (matches (txt "0x"%string) (c0 :: t0 ++ r)) eqn:X0; [|rewrite D; eauto].
    apply matches_0x in X0 as (c & r' & Er & C). destruct (scan_hex (c0 :: t0 ++ r)) as [[v' len']|] eqn:Hx; [|rewrite D; eauto].
    injection Er as -> Er. rewrite Er in Hx. destruct (hex_sound c r' v' len' C Hx) as [L3 _].
    assert (t0 = []) as ->. { destruct t0 as [|c1 t1]; [done|]. cbn in Er. injection Er as -> _. apply Forall_cons in Fc as [_ [Fc _]%Forall_cons]. lia. }
    exists v', len'. cbn [length]. split_and!; [done|lia|lia].
  - unfold scan_unsigned. cbn [app]. destruct (not_words 48 (c :: (m ++ e) ++ r) ltac:(lia)) as (-> & -> & ->).
    replace (matches (txt "0x"%string) (48%Z :: c :: (m ++ e) ++ r)) with true by (symmetry; apply matches_0x; eauto).
    destruct (hex_complete c m n k e x r M X) as (v & len & -> & L1 & L2). exists v, len. cbn [length]. split_and!; [done|lia|]. intros L. apply L2. lia.
  - pose proof (Forall2_length _ _ _ H) as L. cbn in L. unfold scan_unsigned. destruct (matches (txt "infinity"%string) (t' ++ r)); [exists SInf, 8; split_and!; [done|lia|done]|].
    replace (matches (txt "inf"%string) (t' ++ r)) with true by (symmetry; apply word_inf; eauto). exists SInf, 3. split_and!; [done|lia|done].
  - pose proof (Forall2_length _ _ _ H) as L. cbn in L. unfold scan_unsigned.
    replace (matches (txt "infinity"%string) (t' ++ r)) with true by (symmetry; apply word_infinity; eauto). exists SInf, 8. split_and!; [done|lia|done].
  - pose proof (Forall2_length _ _ _ H) as L. cbn in L. unfold scan_unsigned. destruct (nan_not_inf t' r H) as [-> ->].
    replace (matches (txt "nan"%string) (t' ++ r)) with true by (symmetry; apply word_nan; eauto). eexists SNan, _. split_and!; [done|lia|done].
  - pose proof (Forall2_length _ _ _ H) as L. cbn in L. rewrite <- !app_assoc. unfold scan_unsigned. destruct (nan_not_inf t' ([40%Z] ++ cs ++ [41%Z] ++ r) H) as [-> ->].
    replace (matches (txt "nan"%string) (t' ++ [40%Z] ++ cs ++ [41%Z] ++ r)) with true by (symmetry; apply word_nan; eauto).
    rewrite L, drop_app, nan_complete by done. eexists SNan, _. split; [done|]. split; [|done]. rewrite !app_length. cbn [length]. lia.
Qed.
Lemma unsigned_sound s v len : scan_unsigned s = Some (v, len) -> len <= length s /\ exists u, unsigned_text (take len s) u /\ means v u.
Proof.
  unfold scan_unsigned. destruct (matches (txt "infinity"%string) s) eqn:E1.
  { intros [= <- <-]. apply word_infinity in E1 as (t & r & -> & W). pose proof (Forall2_length _ _ _ W) as L. cbn in L. rewrite app_length. split; [lia|].
    exists Infinite. rewrite L, take_app. split; [constructor; by right|done]. }
  destruct (matches (txt "inf"%string) s) eqn:E2.
  { intros [= <- <-]. apply word_inf in E2 as (t & r & -> & W). pose proof (Forall2_length _ _ _ W) as L. cbn in L. rewrite app_length. split; [lia|].
    exists Infinite. rewrite L, take_app. split; [constructor; by left|done]. }
  destruct (matches (txt "nan"%string) s) eqn:E3.
  { intros E0. assert (v = SNan /\ len = 3 + scan_nan (drop 3 s)) as [-> ->] by (split; congruence). clear E0. apply word_nan in E3 as (t & r & -> & W). pose proof (Forall2_length _ _ _ W) as L. cbn in L. rewrite app_length, L, drop_app.
    destruct (nan_sound r) as [-> |(cs & r' & -> & F & ->)].
    - split; [lia|]. exists Nan. rewrite Nat.add_0_r, take_app. split; [by constructor|done].
    - rewrite !app_length. cbn [length]. split; [lia|]. exists Nan. split; [|done].
      replace (take (length t + (length cs + 2)) (t ++ [40%Z] ++ cs ++ [41%Z] ++ r')) with (t ++ [40%Z] ++ cs ++ [41%Z]); [by constructor|].
      replace (t ++ [40%Z] ++ cs ++ [41%Z] ++ r') with ((t ++ [40%Z] ++ cs ++ [41%Z]) ++ r') by (by rewrite <- !app_assoc).
      rewrite take_app_alt; [done|]. rewrite !app_length. cbn [length]. lia. }
  destruct (matches (txt "0x"%string) s) eqn:E4.
  - apply matches_0x in E4 as (c & r & -> & C). destruct (scan_hex (48%Z :: c :: r)) as [[v' len']|] eqn:Hx.
    + intros [= <- <-]. destruct (hex_sound c r v' len' C Hx) as [L H]. cbn [length]. split; [lia|done].
    + apply decimal_sound.
  - apply decimal_sound.
Qed.
(** ** With a sign *)
Lemma drop_S1 {A} (x : A) l : drop 1 (x :: l) = l.
Proof. done. Qed.
Definition scan_signed (s : list Z) : option (bool * scanned * nat) :=
  let '(neg, sgn) := scan_sign s in
  match scan_unsigned (drop sgn s) with Some (v, n) => Some (neg, v, sgn + n) | None => None end.
Lemma signed_complete t neg u r : float_text t neg u -> exists neg' v len, scan_signed (t ++ r) = Some (neg', v, len) /\ length t <= len /\ (len = length t -> neg' = neg /\ means v u).
Proof.
  unfold scan_signed. intros [t' u' H|t' u' H|t' u' H]; destruct (unsigned_complete t' u' r H) as (v & len & E & L1 & L2).
  - destruct (unsigned_first _ _ H) as (c & t'' & -> & N1 & N2 & _). cbn [app scan_sign]. apply Z.eqb_neq in N1, N2. rewrite N1, N2. cbv iota beta. rewrite drop_0. cbn [app] in E. rewrite E. do 3 eexists. split; [done|]. split; [lia|]. auto.
  - cbn [app scan_sign]. change (43 =? 45)%Z with false. change (43 =? 43)%Z with true. cbv iota beta. rewrite drop_S1, E. do 3 eexists. split; [done|]. cbn [length]. split; [lia|]. intros L. split; [done|]. apply L2. lia.
  - cbn [app scan_sign]. change (45 =? 45)%Z with true. cbv iota beta. rewrite drop_S1, E. do 3 eexists. split; [done|]. cbn [length]. split; [lia|]. intros L. split; [done|]. apply L2. lia.
Qed.
Lemma signed_sound s neg v len : scan_signed s = Some (neg, v, len) -> len <= length s /\ exists u, float_text (take len s) neg u /\ means v u.
Proof.
  unfold scan_signed. destruct (scan_sign s) as [neg' sgn] eqn:Sg. destruct (scan_unsigned (drop sgn s)) as [[v' n]|] eqn:E; [|done]. intros [= -> -> <-].
  destruct (unsigned_sound _ _ _ E) as [L (u & T & M)]. unfold scan_sign in Sg. destruct s as [|c s].
  - injection Sg as <- <-. cbn in *. split; [lia|]. exists u. split; [by constructor|done].
  - destruct (Z.eqb_spec c 45) as [->|]; [|destruct (Z.eqb_spec c 43) as [->|]]; injection Sg as <- <-; rewrite ?drop_S1, ?drop_0 in *; cbn [length Nat.add take]; (split; [cbn [length] in L; lia|]); exists u; (split; [|done]).
    + by constructor.
    + by constructor.
    + by constructor.
Qed.
Lemma strtof_eq buf : strtof buf =
  let ws := count_while c_isspace buf in
  match scan_signed (drop ws buf) with Some (neg, v, n) => (f32_of_scanned neg v, ws + n) | None => (B754_zero 24 128 false, 0) end.
Proof.
  unfold strtof, scan_signed. destruct (scan_sign _) as [neg sgn]. destruct (scan_unsigned _) as [[v n]|]; [|done]. cbn. f_equal. lia.
Qed.
Lemma float_chars t neg u : float_text t neg u -> Forall (fun c => 40 <= c)%Z t.
Proof. intros [? ? H|? ? H|? ? H]; [|constructor; [lia|]..]; by eapply unsigned_chars. Qed.
Lemma float_first t neg u r : float_text t neg u -> t <> [] /\ starts_without blank (t ++ r).
Proof.
  intros [? ? H|? ? H|? ? H]; [|split; [done|]; cbn; unfold blank; lia..]. destruct (unsigned_first _ _ H) as (c & t' & -> & _ & _ & B). split; done.
Qed.
Lemma parse_f32_eq input : parse_f32 input =
  (let '(ret, end_) := strtof (input ++ [0%Z]) in
   if end_ =? 0 then Ok None else rest ← view_sub input end_ (length input); Ok (Some (ret, rest))).
Proof.
  unfold parse_f32. rewrite terminate_eq. cbn [mbind res_bind].
  replace (length input + 1) with (length (input ++ [0%Z])) by (by rewrite app_length). by rewrite str_view_full.
Qed.

(** ** %f *)
Lemma div_even_spec n d : (0 < d)%Z -> div_even n d = ZnearestE (IZR n / IZR d).
Proof.
  intros Hd. assert (0 < IZR d)%R as Rd by (apply IZR_lt; lia).
  pose proof (Z.mod_pos_bound n d Hd) as Hr. pose proof (Z.div_mod n d ltac:(lia)) as E.
  set (q := (n / d)%Z) in *. set (r := (n mod d)%Z) in *. cbv beta in *.
  assert (IZR n / IZR d = IZR q + IZR r / IZR d)%R as Ex. { rewrite E, plus_IZR, mult_IZR. field. lra. }
  assert (0 <= IZR r / IZR d < 1)%R as Fr.
  { split; [apply Rmult_le_pos; [apply (IZR_le 0); lia|left; by apply Rinv_0_lt_compat]|]. apply Rmult_lt_reg_r with (IZR d); [done|]. unfold Rdiv. rewrite Rmult_assoc, Rinv_l, Rmult_1_l, Rmult_1_r by lra. apply IZR_lt; lia. }
  assert (Zfloor (IZR n / IZR d) = q) as Fl. { apply Zfloor_imp. rewrite plus_IZR, Ex. lra. }
  unfold div_even, Znearest. fold q r. cbv zeta. rewrite Fl, Ex. replace (IZR q + IZR r / IZR d - IZR q)%R with (IZR r / IZR d)%R by ring.
  assert ((IZR r / IZR d = / 2)%R -> (2 * r = d)%Z) as C1.
  { intros H. apply eq_IZR. rewrite mult_IZR. apply Rmult_eq_reg_r with (/ IZR d)%R; [|by apply Rinv_neq_0_compat, Rgt_not_eq]. unfold Rdiv in H. rewrite Rmult_assoc, H, !Rinv_r by lra. done. }
  destruct (Rcompare_spec (IZR r / IZR d) (/ 2)) as [H|H|H].
  - destruct (Z.ltb_spec (2 * r) d) as [K|K]; [done|]. exfalso. apply IZR_le in K. rewrite mult_IZR in K.
    apply (Rmult_lt_compat_r (IZR d)) in H; [|done]. unfold Rdiv in H. rewrite Rmult_assoc, Rinv_l in H by lra. lra.
  - assert (2 * r = d)%Z as K by (by apply C1). destruct (Z.ltb_spec (2 * r) d); [lia|]. destruct (Z.ltb_spec d (2 * r)); [lia|].
    destruct (Z.even q); [done|]. cbn [negb]. symmetry. rewrite Zceil_floor_neq; rewrite <- Ex, Fl; [done|]. rewrite Ex. lra.
  - destruct (Z.ltb_spec (2 * r) d) as [K|K].
    + exfalso. apply IZR_lt in K. rewrite mult_IZR in K. apply (Rmult_lt_compat_r (IZR d)) in H; [|done]. unfold Rdiv in H. rewrite Rmult_assoc, Rinv_l in H by lra. lra.
    + destruct (Z.ltb_spec d (2 * r)) as [K'|K'].
      * symmetry. rewrite Zceil_floor_neq; rewrite <- Ex, Fl; [done|]. rewrite Ex. lra.
      * exfalso. assert (2 * r = d)%Z as K2 by lia. apply (f_equal IZR) in K2. rewrite mult_IZR in K2. apply (Rmult_lt_compat_r (IZR d)) in H; [|done]. unfold Rdiv in H. rewrite Rmult_assoc, Rinv_l in H by lra. lra.
Qed.
Lemma millionths_spec m e : millionths m e = ZnearestE (IZR (Zpos m) * bpow radix2 e * 1000000).
Proof.
  unfold millionths. destruct (Z.leb_spec 0 e) as [H|H].
  - rewrite <- (IZR_Zpower radix2) by done. change (Zpower radix2 e) with (2 ^ e)%Z. rewrite <- !mult_IZR.
    rewrite (Znearest_imp _ _ (Zpos m * 2 ^ e * 1000000)); [lia|]. replace (_ - _)%R with 0%R by ring. rewrite Rabs_R0. lra.
  - rewrite div_even_spec by (apply Z.pow_pos_nonneg; lia). f_equal. change (2 ^ (- e))%Z with (Zpower radix2 (- e)). rewrite IZR_Zpower by lia. rewrite bpow_opp, mult_IZR. unfold Rdiv. rewrite Rinv_inv. ring.
Qed.
Lemma millionths_nonneg m e : (0 <= millionths m e)%Z.
Proof.
  unfold millionths. destruct (Z.leb_spec 0 e); [lia|]. unfold div_even. cbv zeta.
  assert (0 <= Zpos m * 1000000 / 2 ^ (- e))%Z by (apply Z.div_pos; [lia|apply Z.pow_pos_nonneg; lia]). destruct (_ <? _)%Z; [lia|]. destruct (_ <? _)%Z; [lia|]. destruct (Z.even _); lia.
Qed.
Lemma decimal_snoc' t n d : decimal t n -> (0 <= d <= 9)%Z -> forall m, m = (10 * n + d)%Z -> decimal (t ++ [(48 + d)%Z]) m.
Proof. intros ? ? ? ->. by constructor. Qed.
Lemma fixed_text_spec neg n : (0 <= n)%Z -> exists t, fixed_text neg n = minus neg ++ t /\ six_decimals t n.
Proof.
  intros Hn. exists (dec_text (n / 1000000) ++ [46%Z] ++ six_digits (n mod 1000000)). split; [done|]. exists (dec_text (n / 1000000)), (six_digits (n mod 1000000)). split_and!; [done|done| |].
  - pose proof (dec_text_int (n / 1000000)) as T. pose proof (Z.div_pos n 1000000 Hn ltac:(lia)) as P.
    assert (decimal (dec_text (n / 1000000)) (n / 1000000)) as D.
    { pose proof (dec_text_number (n / 1000000)) as N. unfold number in N. destruct (dec_text (n / 1000000)) as [|c t]; [tauto|].
      destruct (decide (c = 45%Z)) as [->|Nc]; [destruct N as (k & _ & ? & ? & _); lia|].
      assert (decimal (c :: t) (n / 1000000) /\ (hd_error (c :: t) = Some 48%Z -> c :: t = [48%Z])) as [? _]; [|done].
      destruct c as [|c|c]; [exact N| |exact N]. repeat (destruct c as [c|c|]; try exact N); done. }
    set (r := (n mod 1000000)%Z). pose proof (Z.mod_pos_bound n 1000000 ltac:(lia) : (0 <= r < 1000000)%Z) as Hr. assert (n = 1000000 * (n / 1000000) + r)%Z as En by (unfold r; by apply Z.div_mod).
    clearbody r. set (q := (n / 1000000)%Z) in *. clearbody q. unfold six_digits.
    assert (forall a b c d e f : Z, dec_text q ++ [a; b; c; d; e; f] = (((((dec_text q ++ [a]) ++ [b]) ++ [c]) ++ [d]) ++ [e]) ++ [f]) as App by (intros; by rewrite <- !app_assoc).
    rewrite App.
    eapply decimal_snoc'; [eapply decimal_snoc'; [eapply decimal_snoc'; [eapply decimal_snoc'; [eapply decimal_snoc'; [eapply decimal_snoc'; [exact D| |reflexivity]| |reflexivity]| |reflexivity]| |reflexivity]| |reflexivity]| |].
    all: Z.to_euclidean_division_equations; lia.
  - pose proof (dec_text_number (n / 1000000)) as N. pose proof (Z.div_pos n 1000000 Hn ltac:(lia)) as P. unfold number in N. destruct (dec_text (n / 1000000)) as [|c t].
    { destruct N as [D _]. apply decimal_digits in D. tauto. }
    destruct (decide (c = 45%Z)) as [->|Nc]; [destruct N as (k & _ & ? & ? & _); lia|].
    assert (decimal (c :: t) (n / 1000000) /\ (hd_error (c :: t) = Some 48%Z -> c :: t = [48%Z])) as [D H].
    { destruct c as [|c|c]; [exact N| |exact N]. repeat (destruct c as [c|c|]; try exact N); done. }
    destruct (decide (c = 48%Z)) as [->|N48]; [left; by apply H|]. right. apply decimal_digits in D as (F & _). apply Forall_cons in F as [F _]. unfold digit in F.
    exists (c - 48)%Z, t. split; [f_equal; lia|lia].
Qed.
Lemma decimal_to_digits t n : decimal t n -> digits dec_digit 10 t n.
Proof.
  induction 1 as [d H|t n d D IH H].
  - exact (digits_snoc dec_digit 10 [] 0 (48 + d) d (digits_nil _ _) (conj H eq_refl)).
  - by constructor.
Qed.
Lemma six_decimals_text t n : six_decimals t n -> unsigned_text t (Finite (IZR n * powerRZ 10 (-6))).
Proof.
  intros (i & f & -> & L & D & _). pose proof (decimal_digits _ _ D) as (_ & N & _). rewrite <- (app_nil_r (i ++ _)).
  change (-6)%Z with (0 - Z.of_nat 6)%Z. rewrite <- L. apply u_decimal; [|constructor]. apply m_point; [by apply decimal_to_digits|done].
Qed.
(** Nothing but digits and an exponent makes such a number longer. *)
Lemma six_decimals_scan neg t n r : six_decimals t n -> starts_without (fun c => digit c \/ c = 101 \/ c = 69)%Z r ->
  scan_signed ((minus neg ++ t) ++ r) = Some (neg, SNum n 10 (-6), length (minus neg ++ t)).
Proof.
  intros (i & f & -> & L & D & H) R. pose proof (decimal_digits _ _ D) as (F & N & V & _). apply Forall_app in F as [Fi Ff].
  assert (forall l, Forall digit l -> Forall (fun c => is_digit c = true) l) as Fd by (intros l Hl; eapply Forall_impl; [exact Hl|]; intros c; apply is_digit_spec).
  assert (exists c i', i = c :: i' /\ (48 <= c <= 57)%Z) as (c & i' & Ei & Hc).
  { destruct H as [-> |(d & i' & -> & ?)]; eexists _, _; (split; [done|lia]). }
  assert (scan_unsigned ((i ++ 46%Z :: f) ++ r) = Some (SNum n 10 (-6), length (i ++ 46%Z :: f))) as E.
  { unfold scan_unsigned. rewrite Ei. cbn [app]. destruct (not_words c ((i' ++ 46%Z :: f) ++ r) ltac:(lia)) as (-> & -> & ->).
    replace (matches (txt "0x"%string) (c :: (i' ++ 46%Z :: f) ++ r)) with false.
    2: { symmetry. apply not_true_iff_false. intros (b & r' & E0 & B)%matches_0x. injection E0 as _ E0. rewrite Ei in Fi. apply Forall_cons in Fi as [_ Fi].
         destruct i' as [|b' i']; cbn in E0; [injection E0 as <- _; lia|]. injection E0 as <- _. apply Forall_cons in Fi as [Fi _]. unfold digit in Fi. lia. }
    change (c :: (i' ++ 46%Z :: f) ++ r) with (((c :: i') ++ 46%Z :: f) ++ r). rewrite <- Ei.
    unfold scan_decimal, scan_mantissa. rewrite <- app_assoc. cbn [app]. rewrite count_app by auto. cbn [count_while]. change (is_digit 46) with false. cbv iota.
    rewrite Nat.add_0_r, drop_app, Z.eqb_refl, count_app by auto.
    assert (count_while is_digit r = 0) as C0. { destruct r as [|x r]; [done|]. cbn. destruct (is_digit x) eqn:Dx; [|done]. apply is_digit_spec in Dx. cbn in R. tauto. }
    rewrite C0, Nat.add_0_r, L. destruct (Nat.eqb_spec (length i + 6) 0); [lia|].
    assert (take (length i) (i ++ 46%Z :: f ++ r) ++ take 6 (f ++ r) = i ++ f) as ->. { rewrite take_app. f_equal. by apply take_app_alt. }
    assert (drop (length i + 1 + 6) (i ++ 46%Z :: f ++ r) = r) as ->.
    { replace (i ++ 46%Z :: f ++ r) with ((i ++ 46%Z :: f) ++ r) by (by rewrite <- app_assoc). apply drop_app_alt. rewrite app_length. cbn [length]. lia. }
    replace (scan_exponent 101 69 r) with (0%Z, 0).
    2: { destruct r as [|x r]; [done|]. cbn [scan_exponent]. cbn in R. destruct (Z.eqb_spec x 101); [tauto|]. destruct (Z.eqb_spec x 69); [tauto|]. done. }
    replace (digits_val 10 (i ++ f)) with n; [|apply (digits_facts is_digit dec_digit 10 is_digit_dec dec_val); by apply decimal_to_digits].
    replace (length (c :: i' ++ 46%Z :: f)) with (length i + 1 + 6 + 0); [done|]. rewrite Ei. cbn [length]. rewrite app_length. cbn [length]. lia. }
  unfold scan_signed. destruct neg; cbn [minus app].
  - cbn [scan_sign]. change (45 =? 45)%Z with true. cbv iota beta. rewrite drop_S1, E. done.
  - rewrite Ei at 1. cbn [app scan_sign]. destruct (Z.eqb_spec c 45); [lia|]. destruct (Z.eqb_spec c 43); [lia|]. rewrite drop_0, E. done.
Qed.
