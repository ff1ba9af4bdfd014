(** C97: what a logged line says. *)
From Verif Require Import Word MathModel StringModel StringSpec FormatModel FormatSpec StringProofs FormatProofs FormatProps LogLineModel LogLineSpec.
From Coq Require Import Ascii String.
Local Open Scope Z_scope.
Notation length := Datatypes.length.

(** ** Reading strings *)
Lemma c_strn_all n m r : Forall (fun b => b <> 0) m -> length m = n -> c_strn n (m ++ r) = Ok m.
Proof.
  revert m. induction n as [|n IH]; intros m F L.
  - by destruct m.
  - destruct m as [|b m]; [done|]. apply Forall_cons in F as [Hb F]. cbn [app c_strn].
    apply Z.eqb_neq in Hb. rewrite Hb, IH; [done|done|]. cbn in L. lia.
Qed.
Lemma c_str_all m r : Forall (fun b => b <> 0) m -> c_str (m ++ 0 :: r) = Ok m.
Proof.
  induction 1 as [|b m Hb F IH]; [done|]. cbn [app c_str]. apply Z.eqb_neq in Hb. by rewrite Hb, IH.
Qed.
Lemma c_str_past m : Forall (fun b => b <> 0) m -> c_str m = UB.
Proof.
  induction 1 as [|b m Hb F IH]; [done|]. cbn [c_str]. apply Z.eqb_neq in Hb. by rewrite Hb, IH.
Qed.
Lemma as_int_small x : 0 <= x < 2 ^ 31 -> as_int x = x.
Proof. intros H. apply to_signed_small; [lia|]. unfold is_i. change (2 ^ (32 - 1)) with (2 ^ 31). lia. Qed.
Lemma c_str_prec_all m r : Forall (fun b => b <> 0) m -> Z.of_nat (length m) < 2 ^ 31 ->
  c_str_prec (as_int (Z.of_nat (length m))) (m ++ r) = Ok m.
Proof.
  intros F B. rewrite as_int_small by lia. unfold c_str_prec. destruct (Z.ltb_spec (Z.of_nat (length m)) 0); [lia|].
  apply c_strn_all; [done|lia].
Qed.
Lemma c_pad_spaces w : 0 <= w < 2 ^ 31 -> c_pad (as_int w) [] = replicate (Z.to_nat w) 32.
Proof.
  intros H. rewrite as_int_small by lia. unfold c_pad, spaces. destruct (Z.ltb_spec w 0); [lia|].
  rewrite app_nil_r. f_equal. cbn [length]. lia.
Qed.
Lemma not_in_forall (l : list Z) (b : Z) : ~ In b l -> Forall (fun x => x <> b) l.
Proof. intros H. apply List.Forall_forall. intros x Hx ->. done. Qed.

(** ** The clock *)
Definition clock_bytes (tm : clock) : list Z :=
  txt "[" ++ two_digits (hour tm) ++ txt ":" ++ two_digits (minute tm) ++ txt ":" ++ two_digits (second tm) ++ txt "]".
Lemma time_string_eq buf tm : length buf = 64%nat ->
  sys_time_string buf tm = Ok (clock_bytes tm ++ 0 :: drop 11 buf, 10).
Proof.
  intros L. unfold sys_time_string, strftime.
  change (strftime_text (txt "[%H:%M:%S]") tm) with (clock_bytes tm).
  rewrite app_length. change (length (clock_bytes tm)) with 10%nat. change (length [0]) with 1%nat.
  rewrite decide_True by (rewrite L; lia). cbn [Nat.add]. rewrite <- app_assoc. done.
Qed.
Lemma two_digits_ok n : 0 <= n <= 99 -> exists a b, 0 <= a <= 9 /\ 0 <= b <= 9 /\ n = 10 * a + b /\ two_digits n = [48 + a; 48 + b].
Proof.
  intros H. exists (n / 10), (n mod 10). pose proof (Z.div_mod n 10). pose proof (Z.mod_pos_bound n 10).
  repeat split; try lia. all: Z.to_euclidean_division_equations; lia.
Qed.
Lemma clock_bytes_ok tm : time_of_day tm -> clock_text tm (clock_bytes tm) /\ Forall (fun b => b <> 0) (clock_bytes tm).
Proof.
  intros (H & M & S). unfold clock_bytes.
  destruct (two_digits_ok (hour tm)) as (h1 & h0 & ? & ? & Eh & ->); [lia|].
  destruct (two_digits_ok (minute tm)) as (m1 & m0 & ? & ? & Em & ->); [lia|].
  destruct (two_digits_ok (second tm)) as (s1 & s0 & ? & ? & Es & ->); [lia|].
  split.
  - constructor; [repeat constructor; lia|done..].
  - change (txt "[") with [91]; change (txt ":") with [58]; change (txt "]") with [93]. cbn [app]. repeat constructor; lia.
Qed.

(** ** Decimal numbers *)
Lemma dec_digits_length f n acc : (length (dec_digits f n acc) <= S f + length acc)%nat.
Proof.
  revert n acc. induction f as [|f IH]; intros n acc; cbn [dec_digits]; [cbn; lia|].
  destruct (_ =? 0); [cbn; lia|]. specialize (IH (n / 10) (48 + n mod 10 :: acc)). cbn [length] in IH. lia.
Qed.
Lemma dec_text_length x : 0 <= x < 2 ^ 64 -> (length (dec_text x) <= 64)%nat.
Proof.
  intros [L H]. unfold dec_text. destruct (Z.ltb_spec x 0); [lia|].
  pose proof (dec_digits_length (Z.to_nat (Z.log2 x)) x []) as D. cbn [length] in D.
  assert (Z.log2 x < 64). { destruct (decide (x = 0)) as [->|]; [done|]. apply Z.log2_lt_pow2; lia. }
  lia.
Qed.
Lemma number_nonneg x t : 0 <= x -> number x t -> Forall digit t /\ digits_value t = x.
Proof.
  intros Hx. unfold number.
  assert (decimal t x -> Forall digit t /\ digits_value t = x) as K.
  { intros D. pose proof (decimal_digits _ _ D) as (F & _ & V & _). done. }
  destruct t as [|[|p|p] t]; [intros [? _]; auto..| |intros [? _]; auto].
  do 6 (destruct p as [p|p|]; try (intros [? _]; auto; fail)).
  intros (n & _ & Hn & -> & _). lia.
Qed.

(** ** One line *)
Lemma printf_prec p m t f a r : c_str_prec (as_int p) m = Ok t -> printf_loop f a = Ok r ->
  printf_loop (txt "%.*s" ++ f) (AInt p :: APtr m :: a) = Ok (t ++ r).
Proof. intros E F. change (printf_loop (txt "%.*s" ++ f) (AInt p :: APtr m :: a)) with
  (t ← c_str_prec (as_int p) m; r ← printf_loop f a; Ok (t ++ r)). by rewrite E, F. Qed.
Lemma printf_width w m t f a r : c_str m = Ok t -> printf_loop f a = Ok r ->
  printf_loop (txt "%*s" ++ f) (AInt w :: APtr m :: a) = Ok (c_pad (as_int w) t ++ r).
Proof. intros E F. change (printf_loop (txt "%*s" ++ f) (AInt w :: APtr m :: a)) with
  (t ← c_str m; r ← printf_loop f a; Ok (c_pad (as_int w) t ++ r)). by rewrite E, F. Qed.
Lemma printf_str m t f a r : c_str m = Ok t -> printf_loop f a = Ok r ->
  printf_loop (txt "%s" ++ f) (APtr m :: a) = Ok (t ++ r).
Proof. intros E F. change (printf_loop (txt "%s" ++ f) (APtr m :: a)) with
  (t ← c_str m; r ← printf_loop f a; Ok (t ++ r)). by rewrite E, F. Qed.
Lemma printf_zu x f a r : printf_loop f a = Ok r ->
  printf_loop (txt "%zu" ++ f) (AInt x :: a) = Ok (dec_text (wrap 64 x) ++ r).
Proof. intros F. change (printf_loop (txt "%zu" ++ f) (AInt x :: a)) with
  (r ← printf_loop f a; Ok (dec_text (wrap 64 x) ++ r)). by rewrite F. Qed.
Lemma printf_char b f a : b <> 37 -> printf_loop (b :: f) a = r ← printf_loop f a; Ok (b :: r).
Proof.
  intros H. destruct b as [|p|p]; [done| |done]. do 6 (try destruct p as [p|p|]; try done).
Qed.
Lemma printf_lit l f a r : Forall (fun b => b <> 37) l -> printf_loop f a = Ok r -> printf_loop (l ++ f) a = Ok (l ++ r).
Proof.
  induction 1 as [|b l Hb _ IH]; [done|]. intros F. cbn [app]. rewrite printf_char by done. by rewrite IH.
Qed.
Lemma format_str_eq l : format_str l =
  colour_on l ++ txt "%.*s" ++ txt " [" ++ txt "%s" ++ txt "/" ++ txt "%zu" ++ txt "] [" ++ txt "%.*s" ++ txt ":" ++ txt "%zu"
  ++ txt "]: " ++ txt "%*s" ++ txt "%.*s" ++ (colour_off l ++ [10]) ++ [].
Proof. by destruct l. Qed.
Lemma printf_line l clk thread file line w msg (bt bm bf : list Z) pf pm :
  c_str_prec (as_int 10) bt = Ok clk -> c_str_prec (as_int pf) bf = Ok file -> c_str_prec (as_int pm) bm = Ok msg ->
  0 <= thread < 2 ^ 64 -> 0 <= line < 2 ^ 64 -> 0 <= w < 2 ^ 31 ->
  printf_loop (format_str l)
    [AInt 10; APtr bt; APtr (level_str l ++ [0]); AInt thread; AInt pf; APtr bf;
     AInt line; AInt w; APtr [0]; AInt pm; APtr bm]
  = Ok (colour_on l ++ clk ++ txt " [" ++ level_name l ++ txt "/" ++ dec_text thread ++ txt "] ["
        ++ file ++ txt ":" ++ dec_text line ++ txt "]: " ++ (replicate (Z.to_nat w) 32 ++ msg) ++ colour_off l ++ [10]).
Proof.
  intros E1 E3 E4 Ht Hl Hw.
  assert (c_str (level_str l ++ [0]) = Ok (level_name l)) as E2 by (by destruct l).
  rewrite format_str_eq, <- (c_pad_spaces w Hw), <- (app_assoc (c_pad _ _) msg).
  assert (Forall (fun b => b <> 37) (colour_on l) /\ Forall (fun b => b <> 37) (colour_off l ++ [10])) as [F1 F2].
  { destruct l; split; repeat constructor; done. }
  replace (dec_text thread) with (dec_text (wrap 64 thread)) by (f_equal; apply Z.mod_small; lia).
  replace (dec_text line) with (dec_text (wrap 64 line)) by (f_equal; apply Z.mod_small; lia).
  apply printf_lit; [done|]. apply printf_prec; [done|]. apply printf_lit; [repeat constructor; done|].
  apply printf_str; [done|]. apply printf_lit; [repeat constructor; done|]. apply printf_zu.
  apply printf_lit; [repeat constructor; done|]. apply printf_prec; [done|]. apply printf_lit; [repeat constructor; done|].
  apply printf_zu. apply printf_lit; [repeat constructor; done|]. apply printf_width; [done|]. apply printf_prec; [done|].
  rewrite <- (app_nil_r (colour_off l ++ [10])) at 2. by apply printf_lit.
Qed.

Definition line_bytes (c : call) (text : list Z) : list Z :=
  colour_on (c_level c) ++ clock_bytes (c_time c) ++ txt " [" ++ level_name (c_level c) ++ txt "/" ++ dec_text (c_thread c) ++ txt "] ["
  ++ c_file c ++ txt ":" ++ dec_text (c_line c) ++ txt "]: " ++ text ++ colour_off (c_level c) ++ [10].
Lemma line_bytes_length c t : 0 <= c_thread c < 2 ^ 64 -> 0 <= c_line c < 2 ^ 64 ->
  (length (line_bytes c t) < length (c_file c) + length t + 200)%nat.
Proof.
  intros Ht Hl. unfold line_bytes. rewrite !app_length.
  pose proof (dec_text_length _ Ht). pose proof (dec_text_length _ Hl).
  change (length (clock_bytes (c_time c))) with 10%nat. change (length (txt " [")) with 2%nat. change (length (txt "/")) with 1%nat.
  change (length (txt "] [")) with 3%nat. change (length (txt ":")) with 1%nat. change (length (txt "]: ")) with 3%nat.
  change (length [10]) with 1%nat.
  destruct (c_level c); cbn [colour_on colour_off level_name]; unfold txt; cbn [length list_ascii_of_string fmap list_fmap]; lia.
Qed.
Lemma time_read buf tm : time_of_day tm -> c_str_prec (as_int 10) (clock_bytes tm ++ 0 :: buf) = Ok (clock_bytes tm).
Proof.
  intros H. change 10 with (Z.of_nat (length (clock_bytes tm))). apply c_str_prec_all; [by apply clock_bytes_ok|done].
Qed.
Lemma log_eq buf badf bad c ps : length buf = 64%nat -> In 0 badf -> In 0 bad -> fits badf bad c ps ->
  log buf c = Ok (line_bytes c (e_text (means c ps))).
Proof.
  intros L Hbf Hb (Hp & Hh & Htm & Ht & Hl & Hi & Hbadf & Hbad & Hlen). unfold log.
  set (msg := filled ps (map text (c_args c))) in *.
  destruct (format_substitutes (c_fmt c) (c_args c)) as [_ FS]. destruct (FS ps Hp) as [FS1 _].
  destruct (FS1 Hh) as [FS2 _]; [fold msg; lia|]. fold msg in FS2.
  destruct (format (c_fmt c) (c_args c)) as [s| | |]; try done. cbn [mbind res_bind] in *. rewrite FS2. cbn [mbind res_bind].
  unfold output. rewrite time_string_eq by done. cbn [mbind res_bind]. unfold printf, literal, whole. cbn [mem len].
  pose proof (Hbadf 0 Hbf) as Bf. pose proof (Hbad 0 Hb) as Bm. apply not_in_forall in Bf, Bm.
  rewrite (printf_line _ (clock_bytes (c_time c)) _ (c_file c) _ _ msg).
  - cbn [mbind res_bind]. replace (wrap 64 (c_indent c * 4)) with (4 * c_indent c)
      by (unfold wrap; rewrite Z.mod_small; lia).
    change (e_text (means c ps)) with (replicate (Z.to_nat (4 * c_indent c)) 32 ++ msg).
    fold (line_bytes c (replicate (Z.to_nat (4 * c_indent c)) 32 ++ msg)).
    pose proof (line_bytes_length c (replicate (Z.to_nat (4 * c_indent c)) 32 ++ msg) Ht Hl) as K.
    rewrite app_length, replicate_length in K. destruct (Z.ltb_spec (Z.of_nat (length (line_bytes c (replicate (Z.to_nat (4 * c_indent c)) 32 ++ msg)))) (2 ^ 31)); [done|lia].
  - by apply time_read.
  - apply c_str_prec_all; [done|lia].
  - pose proof (c_str_prec_all msg [] Bm ltac:(lia)) as K. by rewrite app_nil_r in K.
  - done.
  - done.
  - unfold wrap. rewrite Z.mod_small by lia. lia.
Qed.
Lemma line_shows badf bad c ps : fits badf bad c ps -> shows (means c ps) (line_bytes c (e_text (means c ps))).
Proof.
  intros (_ & _ & Htm & _). apply (Shows (means c ps)); [by apply clock_bytes_ok|apply dec_text_number..].
Qed.

(** ** C97: a logged line *)
(** Every call whose parts hold no NUL prints its template filled in, after indentation, time, level, thread and
    location; the assertion about the time's length holds. *)
Theorem log_line_text_partial : forall buf c ps, length buf = 64%nat -> fits [0] [0] c ps ->
  exists line, log buf c = Ok line /\ shows (means c ps) line.
Proof.
  intros buf c ps L F. eexists. split; [apply (log_eq buf [0] [0]); [done|by left|by left|done]|by eapply line_shows].
Qed.
(** A template with the wrong number of holes ends the program. *)
Theorem log_line_mismatch : forall buf c ps, pieces (c_fmt c) ps -> holes ps <> length (c_args c) ->
  Z.of_nat (length (c_fmt c)) < 2 ^ 64 -> log buf c = Die.
Proof.
  intros buf c ps P H B. unfold log. destruct (format_substitutes (c_fmt c) (c_args c)) as [_ FS].
  destruct (FS ps P) as [_ D]. by rewrite D.
Qed.
(** A failed assertion prints the expression as written, percent signs included. *)
Theorem log_assert_text_partial : forall buf tm thread file line indent expr,
  length buf = 64%nat -> time_of_day tm -> 0 <= thread < 2 ^ 64 -> 0 <= line < 2 ^ 64 -> 0 <= indent ->
  ~ In 0 file -> ~ In 0 expr -> Z.of_nat (length file + length expr) + 4 * indent + 300 < 2 ^ 31 ->
  exists t, log buf (failed_assert tm thread file line indent expr) = Ok t /\
    shows (Entry Fatal tm thread file line (replicate (Z.to_nat (4 * indent)) 32 ++ txt "Assert: " ++ expr)) t.
Proof.
  intros buf tm thread file line indent expr L Htm Ht Hl Hi Hf He B.
  set (ps := (Lit <$> txt "Assert: ") ++ [Hole]).
  assert (filled ps [expr] = txt "Assert: " ++ expr) as E by (cbn; by rewrite app_nil_r).
  destruct (log_line_text_partial buf (failed_assert tm thread file line indent expr) ps) as (t & E1 & E2).
  - done.
  - unfold fits, failed_assert. cbn [c_fmt c_args c_time c_thread c_line c_indent c_file map text length].
    rewrite E. split_and!; try done; try lia.
    + cbn. repeat (apply pieces_lit; [done|]). apply pieces_hole_end.
    + by intros b [<-|[]].
    + intros b [<-|[]]. intros [X|X]%in_app_iff; [|done]. cbn in X. intuition discriminate.
    + rewrite app_length. change (length (txt "Assert: ")) with 8%nat. lia.
  - exists t. split; [done|]. unfold means, failed_assert in E2. cbn [c_fmt c_args c_time c_thread c_line c_indent c_file c_level map text] in E2.
    by rewrite E in E2.
Qed.

(** ** Reading the log back *)
Lemma split_at {P : Z -> Prop} a b x y r r' : Forall P a -> Forall P b -> ~ P x -> ~ P y ->
  a ++ x :: r = b ++ y :: r' -> a = b /\ x :: r = y :: r'.
Proof.
  intros Fa. revert b. induction Fa as [|c a Hc Fa IH]; intros b Fb Hx Hy E.
  - destruct Fb as [|d b Hd Fb]; [done|]. injection E as -> _. done.
  - destruct Fb as [|d b Hd Fb].
    + injection E as -> _. done.
    + injection E as -> E. destruct (IH b Fb Hx Hy E) as [-> ?]. done.
Qed.
Lemma clock_text_inj tm tm' t t' : clock_text tm t -> clock_text tm' t' -> t = t' -> tm = tm'.
Proof.
  intros [h1 h0 m1 m0 s1 s0 _ Eh Em Es] [h1' h0' m1' m0' s1' s0' _ Eh' Em' Es'] U.
  change (txt "[") with [91] in U; change (txt ":") with [58] in U; change (txt "]") with [93] in U. cbn [app] in U.
  pose proof (f_equal (fun l => nth 1 l 0) U) as U1. pose proof (f_equal (fun l => nth 2 l 0) U) as U2.
  pose proof (f_equal (fun l => nth 4 l 0) U) as U3. pose proof (f_equal (fun l => nth 5 l 0) U) as U4.
  pose proof (f_equal (fun l => nth 7 l 0) U) as U5. pose proof (f_equal (fun l => nth 8 l 0) U) as U6.
  cbn [nth] in *. destruct tm as [a b c], tm' as [a' b' c']. cbn [hour minute second] in *. f_equal; lia.
Qed.
Lemma clock_text_length tm t : clock_text tm t -> length t = 10%nat /\ exists r, t = 91 :: r.
Proof. intros [h1 h0 m1 m0 s1 s0 _ _ _ _]. split; [done|]. by eexists. Qed.
Definition plain (e : entry) : Prop :=
  0 <= e_thread e /\ 0 <= e_line e /\ Forall (fun b => b <> 58) (e_file e) /\ Forall (fun b => b <> 10) (e_text e).
Lemma shows_inj e e' t t' r r' : plain e -> plain e' -> shows e t -> shows e' t' -> t ++ r = t' ++ r' -> e = e' /\ r = r'.
Proof.
  intros (Pt & Pl & Pf & Px) (Pt' & Pl' & Pf' & Px') [tm th ln Htm Hth Hln] [tm' th' ln' Htm' Hth' Hln'] E.
  destruct e as [l c n f i x], e' as [l' c' n' f' i' x']. cbn [e_level e_time e_thread e_file e_line e_text] in *.
  destruct (clock_text_length _ _ Htm) as [Lt [ct Ct]], (clock_text_length _ _ Htm') as [Lt' [ct' Ct']].
  rewrite <- !app_assoc in E.
  assert (colour_on l = colour_on l' /\ colour_off l = colour_off l') as [C1 C2].
  { subst tm tm'. destruct l, l'; try done; exfalso; cbn in E; discriminate E. }
  rewrite C1 in E. apply app_inv_head in E. apply app_inj_1 in E as [-> E]; [|congruence].
  pose proof (clock_text_inj _ _ _ _ Htm Htm' eq_refl) as ->. apply app_inv_head in E.
  assert (l = l') as <-.
  { destruct l, l'; try done; cbn in E; discriminate E. }
  apply app_inv_head in E. apply app_inv_head in E.
  apply number_nonneg in Hth as [Dt Vt], Hth' as [Dt' Vt'], Hln as [Dl Vl], Hln' as [Dl' Vl']; try done.
  change (txt "] [") with [93; 32; 91] in E. change (txt ":") with [58] in E. change (txt "]: ") with [93; 58; 32] in E.
  cbn [app] in E.
  assert (~ digit 93) as N93 by (unfold digit; lia).
  apply (split_at (P := digit)) in E as [-> E]; [|done..]. injection E as E.
  apply (split_at (P := fun b => b <> 58)) in E as [-> E]; [|done|done|lia|lia]. injection E as E.
  apply (split_at (P := digit)) in E as [-> E]; [|done..]. injection E as E.
  rewrite !(app_assoc x), !(app_assoc x') in E.
  assert (Forall (fun b => b <> 10) (colour_off l)) as Fo by (destruct l; repeat constructor; done).
  apply (split_at (P := fun b => b <> 10)) in E as [E E']; [|by apply Forall_app|by apply Forall_app|lia|lia].
  apply app_inv_tail in E as ->. injection E' as ->. subst. done.
Qed.

Lemma fits_plain c ps : fits [0; 10; 58] [0; 10] c ps -> plain (means c ps).
Proof.
  intros (_ & _ & _ & Ht & Hl & _ & Hf & Hm & _). unfold plain, means. cbn [e_thread e_line e_file e_text].
  split_and!; [lia|lia|apply not_in_forall, Hf; cbn; auto|].
  apply Forall_app. split; [|apply not_in_forall, Hm; cbn; auto].
  apply Forall_replicate. done.
Qed.
Lemma shows_nonempty e t : shows e t -> t <> [].
Proof. intros [tm th ln Htm Hth Hln]. destruct (e_level e); [|done..]. destruct Htm. done. Qed.
(** What stdout shows determines the entries: calls without NUL or newline, and no colon in the file name, that show
    the same text made the same entries in the same order. *)
Theorem log_transcript_reads_back_partial : forall buf cs cs' pss pss' shown,
  length buf = 64%nat -> Forall2 (fits [0; 10; 58] [0; 10]) cs pss -> Forall2 (fits [0; 10; 58] [0; 10]) cs' pss' ->
  transcript buf cs = Ok shown -> transcript buf cs' = Ok shown ->
  zip_with means cs pss = zip_with means cs' pss'.
Proof.
  intros buf cs cs' pss pss' shown L F. revert cs' pss' shown.
  assert (forall c ps, fits [0; 10; 58] [0; 10] c ps -> log buf c = Ok (line_bytes c (e_text (means c ps)))) as LE.
  { intros c ps H. eapply log_eq; [done| | |exact H]; by left. }
  induction F as [|c ps cs pss Hc F IH]; intros cs' pss' shown F' E E'.
  - injection E as <-. destruct F' as [|c' ps' cs' pss' Hc' F']; [done|]. exfalso.
    cbn [transcript] in E'. rewrite (LE _ _ Hc') in E'. cbn [mbind res_bind] in E'.
    destruct (transcript buf cs'); try done. injection E' as E'. apply app_eq_nil in E' as [E' _].
    by eapply shows_nonempty, E'; eapply line_shows.
  - cbn [transcript] in E. rewrite (LE _ _ Hc) in E. cbn [mbind res_bind] in E.
    destruct (transcript buf cs) as [r| | |] eqn:T; try done. injection E as <-.
    destruct F' as [|c' ps' cs' pss' Hc' F'].
    + exfalso. injection E' as E'. symmetry in E'. apply app_eq_nil in E' as [E' _].
      by eapply shows_nonempty, E'; eapply line_shows.
    + cbn [transcript] in E'. rewrite (LE _ _ Hc') in E'. cbn [mbind res_bind] in E'.
      destruct (transcript buf cs') as [r'| | |] eqn:T'; try done. injection E' as E'. symmetry in E'.
      apply (shows_inj (means c ps) (means c' ps')) in E' as [E1 ->];
        [|by eapply fits_plain|by eapply fits_plain|by eapply line_shows|by eapply line_shows].
      cbn [zip_with]. rewrite E1. f_equal. by eapply IH.
Qed.
(** A line without newline in its parts is one line. *)
Theorem log_line_is_one_line_partial : forall buf c ps t, length buf = 64%nat -> fits [0; 10] [0; 10] c ps ->
  log buf c = Ok t -> exists u, t = u ++ [10] /\ ~ In 10 u.
Proof.
  intros buf c ps t L F E. rewrite (log_eq buf [0; 10] [0; 10] c ps L) in E by (cbn; auto). injection E as <-.
  destruct F as (_ & _ & Htm & Ht & Hl & _ & Hf & Hm & _).
  eexists. split; [unfold line_bytes; rewrite !app_assoc; reflexivity|].
  pose proof (number_nonneg _ _ (proj1 Ht) (dec_text_number _)) as [Dt _].
  pose proof (number_nonneg _ _ (proj1 Hl) (dec_text_number _)) as [Dl _].
  assert (forall l, Forall digit l -> ~ In 10 l) as DN.
  { intros l D H. rewrite List.Forall_forall in D. apply D in H. unfold digit in H. lia. }
  assert (~ In 10 (clock_bytes (c_time c))) as CN.
  { destruct (clock_bytes_ok _ Htm) as [[h1 h0 m1 m0 s1 s0 D _ _ _] _].
    rewrite !Forall_cons in D. change (txt "[") with [91]; change (txt ":") with [58]; change (txt "]") with [93]. cbn [app In]. lia. }
  change (e_text (means c ps)) with (replicate (Z.to_nat (4 * c_indent c)) 32 ++ filled ps (map text (c_args c))).
  rewrite !in_app_iff. revert CN. generalize (clock_bytes (c_time c)). intros clk CN X. repeat destruct X as [X|X].
  all: try (by eapply DN).
  all: try (by (destruct (c_level c); cbn in X; intuition discriminate)).
  all: try (cbn in X; intuition discriminate).
  all: try (by apply CN). all: try (by apply (Hf 10); [cbn; auto|]). all: try (by apply (Hm 10); [cbn; auto|]).
  all: try (apply elem_of_list_In, elem_of_replicate in X as [X _]; done).
  all: by eapply DN; [|exact X].
Qed.

(** ** Where it goes wrong *)
Definition at_noon : clock := Clock 12 0 0.
Definition say (file msg : list Z) (line : Z) : call := Call Info at_noon 1 file line 0 (txt "%") [FView msg].
(** A NUL ends the text: what follows is lost. *)
Theorem log_line_nul_refuted :
  log time_buffer (say (txt "a.cpp") (txt "paid" ++ 0 :: txt " not") 1) = log time_buffer (say (txt "a.cpp") (txt "paid") 1) /\
  exists t, log time_buffer (say (txt "a.cpp") (txt "paid") 1) = Ok t.
Proof. split; [by vm_compute|]. eexists. by vm_compute. Qed.
(** A newline lets one message look like two entries. *)
Theorem log_line_newline_refuted :
  transcript time_buffer [say (txt "a.cpp") (txt "a" ++ 10 :: txt "[12:00:00] [info/1] [a.cpp:2]: b") 1]
  = transcript time_buffer [say (txt "a.cpp") (txt "a") 1; say (txt "a.cpp") (txt "b") 2] /\
  exists t, transcript time_buffer [say (txt "a.cpp") (txt "a") 1; say (txt "a.cpp") (txt "b") 2] = Ok t.
Proof. split; [by vm_compute|]. eexists. by vm_compute. Qed.
(** A colon in the file name lets one location look like another. *)
Theorem log_line_colon_refuted :
  log time_buffer (say (txt "a:1]: b") (txt "c") 2) = log time_buffer (say (txt "a") (txt "b:2]: c") 1) /\
  exists t, log time_buffer (say (txt "a") (txt "b:2]: c") 1) = Ok t.
Proof. split; [by vm_compute|]. eexists. by vm_compute. Qed.
(** Message and indentation are not told apart. *)
Theorem log_line_indent_refuted :
  log time_buffer (Call Info at_noon 1 (txt "a.cpp") 1 1 (txt "x") []) = log time_buffer (Call Info at_noon 1 (txt "a.cpp") 1 0 (txt "    x") []) /\
  exists t, log time_buffer (Call Info at_noon 1 (txt "a.cpp") 1 1 (txt "x") []) = Ok t.
Proof. split; [by vm_compute|]. eexists. by vm_compute. Qed.

Lemma printf_prec_bind p m f a :
  printf_loop (txt "%.*s" ++ f) (AInt p :: APtr m :: a) = t ← c_str_prec (as_int p) m; r ← printf_loop f a; Ok (t ++ r).
Proof. done. Qed.
Lemma ub_lit l f a : Forall (fun b => b <> 37) l -> printf_loop f a = UB -> printf_loop (l ++ f) a = UB.
Proof. induction 1 as [|b l Hb _ IH]; [done|]. intros F. cbn [app]. rewrite printf_char by done. by rewrite IH. Qed.
Lemma ub_prec p m t f a : c_str_prec (as_int p) m = Ok t -> printf_loop f a = UB ->
  printf_loop (txt "%.*s" ++ f) (AInt p :: APtr m :: a) = UB.
Proof. intros E F. rewrite printf_prec_bind. by rewrite E, F. Qed.
Lemma ub_zu x f a : printf_loop f a = UB -> printf_loop (txt "%zu" ++ f) (AInt x :: a) = UB.
Proof. intros F. change (printf_loop (txt "%zu" ++ f) (AInt x :: a)) with
  (r ← printf_loop f a; Ok (dec_text (wrap 64 x) ++ r)). by rewrite F. Qed.
Lemma ub_str m t f a : c_str m = Ok t -> printf_loop f a = UB -> printf_loop (txt "%s" ++ f) (APtr m :: a) = UB.
Proof. intros E F. change (printf_loop (txt "%s" ++ f) (APtr m :: a)) with
  (t ← c_str m; r ← printf_loop f a; Ok (t ++ r)). by rewrite E, F. Qed.
Lemma ub_width w m t f a : c_str m = Ok t -> printf_loop f a = UB -> printf_loop (txt "%*s" ++ f) (AInt w :: APtr m :: a) = UB.
Proof. intros E F. change (printf_loop (txt "%*s" ++ f) (AInt w :: APtr m :: a)) with
  (t ← c_str m; r ← printf_loop f a; Ok (c_pad (as_int w) t ++ r)). by rewrite E, F. Qed.
(** A message of 2 GiB or more (up to 4) has a negative precision: printf reads on behind it. *)
Theorem log_line_long_refuted : forall l tm thread file line indent msg,
  time_of_day tm -> ~ In 0 file -> Z.of_nat (length file) < 2 ^ 31 ->
  ~ In 0 msg -> 2 ^ 31 <= Z.of_nat (length msg) < 2 ^ 32 ->
  output l time_buffer tm thread (literal file) line indent (whole msg) = UB.
Proof.
  intros l tm thread file line indent msg Htm Hf Bf Hm Bm. unfold output.
  rewrite time_string_eq by done. cbn [mbind res_bind]. unfold printf, literal, whole. cbn [mem len].
  assert (c_str (level_str l ++ [0]) = Ok (level_name l)) as E2 by (by destruct l).
  apply not_in_forall in Hf, Hm.
  assert (forall f a, printf_loop (txt "%.*s" ++ f) (AInt (Z.of_nat (length msg)) :: APtr msg :: a) = UB) as U.
  { intros f a. rewrite printf_prec_bind. unfold c_str_prec.
    assert (as_int (Z.of_nat (length msg)) < 0) as N.
    { unfold as_int, to_signed. destruct (Z.ltb_spec (wrap 32 (Z.of_nat (length msg))) (2 ^ (32 - 1))) as [X|X].
      - unfold wrap in X. rewrite Z.mod_small in X by lia. change (2 ^ (32 - 1)) with (2 ^ 31) in X. lia.
      - unfold wrap. rewrite Z.mod_small by lia. lia. }
    apply Z.ltb_lt in N. rewrite N, c_str_past by done. done. }
  enough (forall a, printf_loop (format_str l) (AInt 10 :: APtr (clock_bytes tm ++ 0 :: drop 11 time_buffer) :: APtr (level_str l ++ [0]) ::
    AInt thread :: AInt (Z.of_nat (length file)) :: APtr (file ++ [0]) :: AInt line :: AInt (wrap 64 (indent * 4)) :: APtr [0] ::
    AInt (Z.of_nat (length msg)) :: APtr msg :: a) = UB) as K by (by rewrite K).
  intros a. rewrite format_str_eq.
  assert (Forall (fun b => b <> 37) (colour_on l)) as F1 by (destruct l; repeat constructor; done).
  apply ub_lit; [done|]. eapply ub_prec; [by apply time_read|]. apply ub_lit; [repeat constructor; done|].
  eapply ub_str; [done|]. apply ub_lit; [repeat constructor; done|]. apply ub_zu. apply ub_lit; [repeat constructor; done|].
  eapply ub_prec; [by apply c_str_prec_all|]. apply ub_lit; [repeat constructor; done|]. apply ub_zu.
  apply ub_lit; [repeat constructor; done|]. eapply ub_width; [done|]. apply U.
Qed.
(** Such messages exist. *)
Example long_message : exists msg, ~ In 0 msg /\ 2 ^ 31 <= Z.of_nat (length msg) < 2 ^ 32.
Proof.
  assert (forall n, Z.of_nat n = 2 ^ 31 -> exists msg : list Z, ~ In 0 msg /\ 2 ^ 31 <= Z.of_nat (length msg) < 2 ^ 32) as K.
  { intros n E. exists (replicate n 65). rewrite replicate_length, E. split; [|done].
    intros X. apply elem_of_list_In, elem_of_replicate in X as [X _]. done. }
  apply (K (Z.to_nat (2 ^ 31))). apply Z2Nat.id. done.
Qed.

(** ** The time string *)
(** It spells the time, and fits the buffer. *)
Theorem log_time_text : forall buf tm, length buf = 64%nat -> time_of_day tm ->
  exists buf', sys_time_string buf tm = Ok (buf', 10) /\ length buf' = 64%nat /\ clock_text tm (take 10 buf').
Proof.
  intros buf tm L H. eexists. split; [by apply time_string_eq|]. split.
  - rewrite app_length. change (length (clock_bytes tm)) with 10%nat. cbn [length]. rewrite drop_length. lia.
  - rewrite take_app_alt by done. by apply clock_bytes_ok.
Qed.
(** But the view points into the thread's buffer: the next call changes it. *)
Theorem log_time_view_refuted : exists tm tm' buf buf' n n',
  time_of_day tm /\ time_of_day tm' /\
  sys_time_string time_buffer tm = Ok (buf, n) /\ sys_time_string buf tm' = Ok (buf', n') /\
  take (Z.to_nat n) buf <> take (Z.to_nat n) buf'.
Proof.
  exists (Clock 12 0 0), (Clock 13 0 0). do 4 eexists. split; [unfold time_of_day; cbn; lia|]. split; [unfold time_of_day; cbn; lia|].
  split; [reflexivity|]. split; [reflexivity|]. vm_compute. done.
Qed.

(** ** Examples *)
Example line_ex : log time_buffer (Call Warn (Clock 9 5 59) 7 (txt "main.cpp") 42 1 (txt "x is %, 100%% sure") [FInt I32 (-3)])
  = Ok (27 :: txt "[0;31m[09:05:59] [warn/7] [main.cpp:42]:     x is -3, 100% sure" ++ 27 :: txt "[0m" ++ [10]).
Proof. by vm_compute. Qed.
Example assert_ex : log time_buffer (failed_assert (Clock 9 5 59) 7 (txt "main.cpp") 42 0 (txt "x % 2 == 0"))
  = Ok (27 :: txt "[0;31m[09:05:59] [fatal/7] [main.cpp:42]: Assert: x % 2 == 0" ++ 27 :: txt "[0m" ++ [10]).
Proof. by vm_compute. Qed.
Example fits_ex : exists ps, fits [0; 10; 58] [0; 10] (Call Warn (Clock 9 5 59) 7 (txt "main.cpp") 42 1 (txt "x is %, 100%% sure") [FInt I32 (-3)]) ps.
Proof.
  destruct (pieces_exist (txt "x is %, 100%% sure")) as [ps P]. exists ps.
  assert (ps = (Lit <$> txt "x is ") ++ [Hole] ++ (Lit <$> txt ", 100% sure")) as ->.
  { eapply pieces_unique; [exact P|]. cbn. repeat (first [apply pieces_nil | apply pieces_percent | apply pieces_lit; [done|] | apply pieces_hole; [done|]]). }
  unfold fits. split_and!; try done; try (cbn; lia).
  all: try (by vm_compute).
  all: intros b X Y; vm_compute in Y; cbn in X; intuition (subst; discriminate).
Qed.
Print Assumptions log_line_text_partial.
Print Assumptions log_line_mismatch.
Print Assumptions log_assert_text_partial.
Print Assumptions log_transcript_reads_back_partial.
Print Assumptions log_line_is_one_line_partial.
Print Assumptions log_line_nul_refuted.
Print Assumptions log_line_newline_refuted.
Print Assumptions log_line_colon_refuted.
Print Assumptions log_line_indent_refuted.
Print Assumptions log_line_long_refuted.
Print Assumptions log_time_text.
Print Assumptions log_time_view_refuted.
