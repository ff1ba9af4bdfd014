(** Lemmas for StringProps.v. *)
From Verif Require Import Word StringModel StringSpec.

Lemma memcpy_eq dst off src :
  off + length src <= length dst ->
  memcpy dst off src = Ok (take off dst ++ src ++ drop (off + length src) dst).
Proof. intros H. unfold memcpy. by rewrite (proj2 (Nat.leb_le _ _) H). Qed.

Lemma memcpy_fail dst off src : length dst < off + length src -> memcpy dst off src = UB.
Proof. intros H. unfold memcpy. destruct (Nat.leb_spec (off + length src) (length dst)); [lia|done]. Qed.

Lemma all_written_some v : all_written (Some <$> v) = Ok v.
Proof. induction v as [|b v IH]; [done|]. cbn [fmap list_fmap all_written]. by rewrite IH. Qed.

Lemma all_written_inv l v : all_written l = Ok v -> l = Some <$> v.
Proof.
  revert v. induction l as [|[b|] l IH]; intros v; cbn [all_written mbind res_bind].
  - by intros [= <-].
  - destruct (all_written l) as [v'| | |]; cbn [mbind res_bind]; try done.
    intros [= <-]. cbn. by rewrite (IH v').
  - done.
Qed.

Lemma set_length_ok s n : n <= scap s -> set_length s n = Ok (mk_str (sdata s) n).
Proof. intros H. unfold set_length. by rewrite (proj2 (Nat.leb_le _ _) H). Qed.

Lemma view_get_ok v i b : v !! i = Some b -> view_get v i = Ok b.
Proof.
  intros H. unfold view_get. pose proof (lookup_lt_Some _ _ _ H).
  rewrite (proj2 (Nat.ltb_lt _ _)) by done. cbn. by rewrite H.
Qed.

Lemma view_sub_ok v a b : a <= b -> b <= length v -> view_sub v a b = Ok (take (b - a) (drop a v)).
Proof.
  intros H1 H2. unfold view_sub.
  by rewrite (proj2 (Nat.leb_le _ _) H1), (proj2 (Nat.leb_le _ _) H2).
Qed.

Lemma view_sub_app l t r a b :
  a = length l -> b = length l + length t -> view_sub (l ++ t ++ r) a b = Ok t.
Proof.
  intros -> ->. rewrite view_sub_ok by (rewrite ?app_length; lia).
  rewrite drop_app, take_app_le by lia.
  rewrite take_ge by lia. done.
Qed.

Lemma view_sub_tail l r a b :
  a = length l -> b = length (l ++ r) -> view_sub (l ++ r) a b = Ok r.
Proof.
  intros -> ->. rewrite view_sub_ok by (rewrite ?app_length; lia).
  rewrite drop_app, app_length, take_ge by lia. done.
Qed.

Lemma terminate_eq v : view_terminate v = Ok (mk_str (Some <$> (v ++ [0%Z])) (length v + 1)).
Proof.
  unfold view_terminate, str_new.
  rewrite set_length_ok by (unfold scap; cbn; rewrite replicate_length; lia).
  cbn [mbind res_bind sdata slen].
  rewrite memcpy_eq by (rewrite fmap_length, replicate_length; lia).
  cbn [mbind res_bind]. unfold str_set. cbn [sdata slen].
  rewrite (proj2 (Nat.ltb_lt (length v) (length v + 1))) by lia.
  rewrite fmap_length, Nat.add_0_l, drop_replicate, take_0.
  replace (length v + 1 - length v) with 1 by lia. cbn [replicate app].
  rewrite app_length, fmap_length. cbn [length].
  unfold assert_. cbn [mbind res_bind].
  rewrite (proj2 (Nat.ltb_lt _ _)) by lia.
  rewrite insert_app_r_alt by (rewrite fmap_length; lia).
  rewrite fmap_length, Nat.sub_diag. cbn [insert list_insert].
  by rewrite fmap_app.
Qed.

Lemma append_eq v w : view_append v w = Ok (mk_str (Some <$> (v ++ w)) (length v + length w)).
Proof.
  unfold view_append, str_new.
  rewrite set_length_ok by (unfold scap; cbn; rewrite replicate_length; lia).
  cbn [mbind res_bind sdata slen].
  rewrite memcpy_eq by (rewrite fmap_length, replicate_length; lia).
  cbn [mbind res_bind].
  rewrite fmap_length, Nat.add_0_l, drop_replicate, take_0.
  replace (length v + length w - length v) with (length w) by lia. cbn [app].
  rewrite memcpy_eq by (rewrite app_length, !fmap_length, replicate_length; lia).
  cbn [mbind res_bind].
  rewrite take_app_alt by (by rewrite fmap_length).
  rewrite drop_ge by (rewrite app_length, !fmap_length, replicate_length; lia).
  by rewrite app_nil_r, fmap_app.
Qed.

Lemma view_string_eq v : view_string v = Ok (mk_str (Some <$> v) (length v)).
Proof.
  unfold view_string, str_new. cbn [sdata].
  rewrite memcpy_eq by (rewrite fmap_length, replicate_length; lia).
  cbn [mbind res_bind]. rewrite fmap_length, Nat.add_0_l, drop_replicate, Nat.sub_diag, take_0. cbn.
  by rewrite app_nil_r.
Qed.

(** ** Equality *)
Lemma strncmp_eq l r :
  length l = length r -> (0%Z ∉ l) ->
  exists c, strncmp l r (length l) = Ok c /\ (c = 0%Z <-> l = r).
Proof.
  revert r. induction l as [|a l IH]; intros [|b r]; cbn [length]; intros E H; try lia.
  - exists 0%Z. done.
  - cbn [strncmp]. destruct (Z.eqb_spec a b) as [->|N].
    + destruct (Z.eqb_spec b 0) as [->|_]; [set_solver|].
      destruct (IH r) as (c & -> & Hc); [lia|set_solver|].
      exists c. split; [done|]. rewrite Hc. split; congruence.
    + exists (a - b)%Z. split; [done|]. split; [lia|congruence].
Qed.

Lemma strncmp_refl l : strncmp l l (length l) = Ok 0%Z.
Proof.
  induction l as [|a l IH]; [done|]. cbn [length strncmp]. rewrite Z.eqb_refl.
  by destruct (a =? 0)%Z.
Qed.

(** ** Order *)
Lemma lt_loop_spec p l r :
  exists b, lt_loop (p ++ l) (p ++ r) (length p) (if length l <? length r then length l else length r) = Ok b
    /\ (b = true <-> lex_lt l r).
Proof.
  revert p r. induction l as [|x l IH]; intros p r.
  - destruct r as [|y r]; cbn [length].
    + change (if 0 <? 0 then 0 else 0) with 0. cbn [lt_loop].
      eexists. split; [done|]. rewrite Nat.ltb_irrefl. split; [done|]. inversion 1.
    + change (if 0 <? S (length r) then 0 else S (length r)) with 0. cbn [lt_loop].
      eexists. split; [done|]. rewrite !app_length. cbn [length].
      rewrite (proj2 (Nat.ltb_lt _ _)) by lia. split; [constructor|done].
  - destruct r as [|y r].
    + cbn [length]. change (if S (length l) <? 0 then S (length l) else 0) with 0. cbn [lt_loop].
      eexists. split; [done|]. rewrite !app_length. cbn [length].
      destruct (Nat.ltb_spec (length p + S (length l)) (length p + 0)); [lia|].
      split; [done|inversion 1].
    + cbn [length].
      replace (if S (length l) <? S (length r) then S (length l) else S (length r))
        with (S (if length l <? length r then length l else length r))
        by (destruct (Nat.ltb_spec (length l) (length r)), (Nat.ltb_spec (S (length l)) (S (length r))); lia).
      cbn [lt_loop].
      rewrite (view_get_ok (p ++ x :: l) _ x) by (rewrite lookup_app_r, Nat.sub_diag by lia; done).
      cbn [mbind res_bind].
      rewrite (view_get_ok (p ++ y :: r) _ y) by (rewrite lookup_app_r, Nat.sub_diag by lia; done).
      cbn [mbind res_bind].
      destruct (Z.ltb_spec x y) as [L|L].
      { eexists. split; [done|]. split; [by constructor|done]. }
      destruct (Z.ltb_spec y x) as [L'|L'].
      { eexists. split; [done|]. split; [done|]. inversion 1; subst; lia. }
      assert (x = y) as -> by lia.
      destruct (IH (p ++ [y]) r) as (b & E & Hb).
      rewrite <- !app_assoc in E. rewrite app_length in E. cbn [app length] in E.
      rewrite Nat.add_1_r in E. exists b. split; [exact E|]. rewrite Hb.
      split; [by constructor|]. inversion 1; subst; [lia|done].
Qed.

Lemma view_lt_spec l r : exists b, view_lt l r = Ok b /\ (b = true <-> lex_lt l r).
Proof. exact (lt_loop_spec [] l r). Qed.

Lemma lex_irrefl l : ~ lex_lt l l.
Proof. induction l; inversion 1; subst; [lia|done]. Qed.
Lemma lex_trans l m r : lex_lt l m -> lex_lt m r -> lex_lt l r.
Proof.
  intros H. revert r. induction H; intros q; inversion 1; subst; solve [constructor; auto; lia].
Qed.
Lemma lex_total l r : lex_lt l r \/ l = r \/ lex_lt r l.
Proof.
  revert r. induction l as [|a l IH]; intros [|b r]; [auto|left; constructor|do 2 right; constructor|].
  destruct (Z.lt_trichotomy a b) as [H|[->|H]]; [left; by constructor| |do 2 right; by constructor].
  destruct (IH r) as [H|[->|H]]; [left; by constructor|auto|do 2 right; by constructor].
Qed.
Lemma lex_app l b r : lex_lt l (l ++ b :: r).
Proof. induction l; by constructor. Qed.

(** ** Backward scans *)
Lemma scan_back_spec p v i :
  i < length v ->
  exists j f, scan_back p v i = Ok (j, f) /\ j <= i /\
    (forall k b, j < k <= i -> v !! k = Some b -> p b = false) /\
    (f = true -> 0 < j /\ exists b, v !! j = Some b /\ p b = true) /\
    (f = false -> j = 0).
Proof.
  induction i as [|i IH]; intros H.
  - exists 0, false. cbn. repeat split; try lia; done.
  - cbn [scan_back]. destruct (lookup_lt_is_Some_2 v (S i) H) as [b Hb]. rewrite Hb.
    destruct (p b) eqn:E.
    + exists (S i), true. repeat split; try lia; try done.
      exists b. done.
    + destruct IH as (j & f & -> & L & N & T & F); [lia|].
      exists j, f. split_and!; [done|lia| |exact T|exact F].
      intros k c Hk Hc. destruct (decide (k = S i)) as [->|]; [congruence|].
      eapply N; [|done]. lia.
Qed.

(** ** Whitespace *)
Lemma is_whitespace_spec b : is_whitespace b = true <-> white b.
Proof. unfold is_whitespace, white. rewrite !orb_true_iff, !Z.eqb_eq. tauto. Qed.
Lemma is_whitespace_not b : ~ white b -> is_whitespace b = false.
Proof. intros H. destruct (is_whitespace b) eqn:E; [|done]. by apply is_whitespace_spec in E. Qed.

Lemma skip_loop_spec p ws r :
  Forall white ws -> starts_without white r ->
  skip_loop (p ++ ws ++ r) (length p) (length ws + length r) = Ok (length p + length ws).
Proof.
  revert p. induction ws as [|w ws IH]; intros p Hw Hr.
  - cbn [length app Nat.add]. destruct r as [|b r]; cbn [length skip_loop].
    + by rewrite Nat.add_0_r.
    + rewrite (view_get_ok _ _ b) by (rewrite lookup_app_r, Nat.sub_diag by lia; done).
      cbn [mbind res_bind]. rewrite is_whitespace_not by exact Hr. by rewrite Nat.add_0_r.
  - apply Forall_cons in Hw as [Hw Hws]. cbn [length Nat.add skip_loop app].
    rewrite (view_get_ok _ _ w) by (rewrite lookup_app_r, Nat.sub_diag by lia; done).
    cbn [mbind res_bind]. rewrite (proj2 (is_whitespace_spec w) Hw).
    specialize (IH (p ++ [w]) Hws Hr).
    rewrite <- !app_assoc in IH. rewrite app_length in IH. cbn [length app] in IH.
    rewrite Nat.add_1_r in IH. rewrite IH. f_equal. lia.
Qed.

Lemma skip_loop_start ws r :
  Forall white ws -> starts_without white r ->
  skip_loop (ws ++ r) 0 (length ws + length r) = Ok (length ws).
Proof. exact (skip_loop_spec [] ws r). Qed.

Lemma white_split (P : Z -> Prop) `{forall b, Decision (P b)} s :
  exists ws r, s = ws ++ r /\ Forall P ws /\ starts_without P r.
Proof.
  induction s as [|b s (ws & r & -> & Hw & Hr)].
  - by exists [], [].
  - destruct (decide (P b)).
    + exists (b :: ws), r. repeat split; [by constructor|done].
    + exists [], (b :: ws ++ r). repeat split; [constructor|done].
Qed.

Global Instance white_dec b : Decision (white b).
Proof. unfold white. apply _. Defined.
Global Instance blank_dec b : Decision (blank b).
Proof. unfold blank. apply _. Defined.
Global Instance digit_dec b : Decision (digit b).
Proof. unfold digit. apply _. Defined.

(** Walking over the token. *)
Lemma parse_string_walk ws tok1 tok2 r :
  Forall (fun b => ~ white b) tok2 -> r <> [] ->
  parse_string_loop (ws ++ tok1 ++ tok2 ++ r) (length ws) (length ws + length tok1) (length tok2 + length r)
  = parse_string_loop (ws ++ tok1 ++ tok2 ++ r) (length ws) (length ws + length tok1 + length tok2) (length r).
Proof.
  revert tok1. induction tok2 as [|b tok2 IH]; intros tok1 Ht Hr.
  - cbn. by rewrite Nat.add_0_r.
  - apply Forall_cons in Ht as [Hb Ht]. cbn [length Nat.add parse_string_loop].
    assert (0 < length r) by (destruct r; [done|cbn; lia]).
    assert ((S (length ws + length tok1) =? length (ws ++ tok1 ++ (b :: tok2) ++ r)) = false) as ->.
    { apply Nat.eqb_neq. rewrite !app_length. cbn. lia. }
    cbn [andb].
    rewrite (view_get_ok _ _ b).
    2: { rewrite lookup_app_r by lia. replace (length ws + length tok1 - length ws) with (length tok1) by lia.
         rewrite lookup_app_r, Nat.sub_diag by lia. done. }
    cbn [mbind res_bind]. rewrite is_whitespace_not by done.
    specialize (IH (tok1 ++ [b]) Ht Hr).
    rewrite app_length in IH. cbn [length] in IH. rewrite <- !app_assoc in IH. cbn [app] in IH.
    replace (S (length ws + length tok1)) with (length ws + (length tok1 + 1)) by lia.
    cbn [app]. rewrite IH. f_equal. lia.
Qed.

(** ** Numbers *)
Lemma count_while_app (p : Z -> bool) (P : Z -> Prop) l r :
  (forall b, p b = true <-> P b) -> Forall P l -> starts_without P r ->
  count_while p (l ++ r) = length l.
Proof.
  intros Hp. induction l as [|b l IH]; cbn [app count_while length].
  - intros _ Hr. destruct r as [|b r]; [done|]. cbn. destruct (p b) eqn:E; [|done].
    apply Hp in E. by destruct Hr.
  - intros [Hb Hl]%Forall_cons Hr. rewrite (proj2 (Hp b) Hb). by rewrite IH.
Qed.

Lemma count_while_split (p : Z -> bool) l : Forall (fun b => p b = true) (take (count_while p l) l).
Proof.
  induction l as [|b l IH]; [constructor|]. cbn. destruct (p b) eqn:E; [|constructor].
  cbn. by constructor.
Qed.
Lemma count_while_le (p : Z -> bool) l : count_while p l <= length l.
Proof. induction l as [|b l IH]; cbn; [lia|]. destruct (p b); lia. Qed.

Lemma is_digit_spec b : is_digit b = true <-> digit b.
Proof. unfold is_digit, digit. rewrite andb_true_iff, !Z.leb_le. done. Qed.
Lemma c_isspace_spec b : c_isspace b = true <-> blank b.
Proof. unfold c_isspace, blank. rewrite orb_true_iff, andb_true_iff, Z.eqb_eq, !Z.leb_le. done. Qed.

Lemma decimal_digits t n : decimal t n -> Forall digit t /\ t <> [] /\ digits_value t = n /\ (0 <= n)%Z.
Proof.
  induction 1 as [d Hd|t n d Ht (F & N & V & P) Hd].
  - repeat split; [|done| |lia].
    + repeat constructor; unfold digit; lia.
    + unfold digits_value. cbn. lia.
  - repeat split; [|by destruct t| |lia].
    + apply Forall_app. split; [done|]. repeat constructor; unfold digit; lia.
    + unfold digits_value in *. rewrite fold_left_app, V. cbn [fold_left]. lia.
Qed.

Lemma digits_decimal t : Forall digit t -> t <> [] -> decimal t (digits_value t).
Proof.
  induction t as [|d t IH] using rev_ind; [done|]. intros [F [Hd _]%Forall_cons]%Forall_app _.
  unfold digit in Hd.
  replace [d] with [48 + (d - 48)]%Z by (f_equal; lia).
  destruct t as [|a t].
  - cbn [app]. replace (digits_value [48 + (d - 48)])%Z with (d - 48)%Z by (unfold digits_value; cbn; lia).
    constructor. lia.
  - replace (digits_value ((a :: t) ++ [48 + (d - 48)]))%Z
      with (10 * digits_value (a :: t) + (d - 48))%Z.
    + constructor; [by apply IH|lia].
    + unfold digits_value. rewrite fold_left_app. cbn [fold_left]. lia.
Qed.

Lemma clamp_nearest n : clamp_i64 n = nearest_i64 n.
Proof.
  unfold clamp_i64, nearest_i64.
  destruct (Z.ltb_spec n (- 2 ^ 63)), (Z.ltb_spec (2 ^ 63 - 1) n); lia.
Qed.

Lemma strtoll_number ws t n rest :
  Forall blank ws -> int_text t n -> starts_without digit rest ->
  strtoll (ws ++ t ++ rest) = (clamp_i64 n, length ws + length t).
Proof.
  intros Hw Ht Hr. unfold strtoll.
  assert (forall t n, decimal t n -> exists d t', t = d :: t' /\ digit d) as HD.
  { intros t0 n0 (F & N & _)%decimal_digits. destruct t0 as [|d t0]; [done|].
    apply Forall_cons in F as [? _]. eauto. }
  assert (starts_without blank (t ++ rest)) as Hb.
  { destruct Ht as [t n H|t n H|t n H]; [|cbn; unfold blank; lia..].
    destruct (HD _ _ H) as (d & t' & -> & Hd). cbn. unfold blank, digit in *. lia. }
  rewrite (count_while_app c_isspace blank ws) by (done || apply c_isspace_spec).
  rewrite drop_app.
  assert (forall t n, decimal t n -> count_while is_digit (t ++ rest) = length t) as HC.
  { intros t0 n0 (F & _)%decimal_digits.
    apply (count_while_app is_digit digit t0); [apply is_digit_spec|done..]. }
  assert (forall t n, decimal t n -> (length t =? 0) = false) as HZ.
  { intros t0 n0 (_ & N & _)%decimal_digits. apply Nat.eqb_neq. by destruct t0. }
  destruct Ht as [t n H|t n H|t n H].
  - pose proof (decimal_digits _ _ H) as (F & N & V & _).
    destruct (HD _ _ H) as (d & t' & -> & Hd). cbn [app].
    unfold digit in Hd.
    destruct (Z.eqb_spec d 45); [lia|]. destruct (Z.eqb_spec d 43); [lia|].
    change (d :: t' ++ rest) with ((d :: t') ++ rest).
    rewrite drop_0, (HC _ _ H), (HZ _ _ H), take_app, V. f_equal. lia.
  - pose proof (decimal_digits _ _ H) as (F & N & V & _). cbn [app].
    change (43 =? 45)%Z with false. change (43 =? 43)%Z with true. cbv iota beta.
    change (drop 1 (43%Z :: t ++ rest)) with (t ++ rest).
    rewrite (HC _ _ H), (HZ _ _ H), take_app, V. f_equal. cbn [length]. lia.
  - pose proof (decimal_digits _ _ H) as (F & N & V & _). cbn [app].
    change (45 =? 45)%Z with true. cbv iota beta.
    change (drop 1 (45%Z :: t ++ rest)) with (t ++ rest).
    rewrite (HC _ _ H), (HZ _ _ H), take_app, V. f_equal. cbn [length]. lia.
Qed.

(** If it reads anything, it read a number. *)
Lemma strtoll_inv buf v k :
  strtoll buf = (v, k) -> k <> 0 ->
  exists ws t n, Forall blank ws /\ int_text t n /\ k = length ws + length t /\
    exists rest, buf = ws ++ t ++ rest.
Proof.
  unfold strtoll. set (w := count_while c_isspace buf).
  assert (Forall blank (take w buf)) as Hw.
  { eapply Forall_impl; [apply count_while_split|]. cbn. intros b. apply c_isspace_spec. }
  assert (length (take w buf) = w) as Lw.
  { rewrite take_length. pose proof (count_while_le c_isspace buf). subst w. lia. }
  assert (forall (ds : list Z) pre, drop w buf = pre ++ ds -> count_while is_digit ds <> 0 ->
    decimal (take (count_while is_digit ds) ds) (digits_value (take (count_while is_digit ds) ds)) /\
    length (take (count_while is_digit ds) ds) = count_while is_digit ds /\
    buf = take w buf ++ (pre ++ take (count_while is_digit ds) ds) ++ drop (count_while is_digit ds) ds) as HD.
  { intros ds pre E N. pose proof (count_while_le is_digit ds). split_and!.
    - apply digits_decimal.
      + eapply Forall_impl; [apply count_while_split|]. cbn. intros b. apply is_digit_spec.
      + intros E'. apply (f_equal length) in E'. rewrite take_length in E'. cbn in E'. lia.
    - rewrite take_length. lia.
    - rewrite <- app_assoc, take_drop, <- E, take_drop. done. }
  destruct (drop w buf) as [|c rest] eqn:E.
  { cbn. intros [= <- <-]. done. }
  destruct (Z.eqb_spec c 45) as [->|N1]; [|destruct (Z.eqb_spec c 43) as [->|N2]].
  - change (drop 1 (45%Z :: rest)) with rest. destruct (Nat.eqb_spec (count_while is_digit rest) 0) as [Z|Z]; [intros; exfalso; congruence|].
    intros [= <- <-] _. destruct (HD rest [45%Z] eq_refl Z) as (D & L & B).
    eexists _, _, _. split_and!; [exact Hw|by apply int_minus|cbn [length]; lia|eexists; exact B].
  - change (drop 1 (43%Z :: rest)) with rest. destruct (Nat.eqb_spec (count_while is_digit rest) 0) as [Z|Z]; [intros; exfalso; congruence|].
    intros [= <- <-] _. destruct (HD rest [43%Z] eq_refl Z) as (D & L & B).
    eexists _, _, _. split_and!; [exact Hw|by apply int_plus|cbn [length]; lia|eexists; exact B].
  - rewrite drop_0. destruct (Nat.eqb_spec (count_while is_digit (c :: rest)) 0) as [Z|Z]; [intros; exfalso; congruence|].
    intros HH _. assert (k = w + 0 + count_while is_digit (c :: rest)) as -> by congruence.
    destruct (HD (c :: rest) [] eq_refl Z) as (D & L & B).
    eexists _, _, _. split_and!; [exact Hw|by apply int_plain| |eexists; exact B].
    rewrite Lw, L. lia.
Qed.

Lemma str_view_full v : str_view (mk_str (Some <$> v) (length v)) = Ok v.
Proof. unfold str_view. cbn [sdata slen]. rewrite take_ge by (by rewrite fmap_length). apply all_written_some. Qed.

Lemma parse_i64_eq input :
  parse_i64 input =
    (let '(ret, end_) := strtoll (input ++ [0%Z]) in
     if end_ =? 0 then Ok None
     else rest ← view_sub input end_ (length input); Ok (Some (ret, rest))).
Proof.
  unfold parse_i64. rewrite terminate_eq. cbn [mbind res_bind].
  replace (length input + 1) with (length (input ++ [0%Z])) by (by rewrite app_length).
  by rewrite str_view_full.
Qed.
