(** Properties of strings (C21-C24), of the text parsers (C28), of the ASCII
    helpers (C72) and of enum names (C73). *)
From Verif Require Import Word HashModel StringModel StringSpec StringProofs.

(** ** C21: == is equality of bytes ...  Holds when one of the two has no
    NUL byte; missing: strings with an embedded NUL, for which it is false. *)
Theorem string_eq_partial : forall l r : list Z,
  (0%Z ∉ l \/ 0%Z ∉ r) -> view_eq l r = Ok (bool_decide (l = r)).
Proof.
  intros l r H. unfold view_eq. destruct (Nat.eqb_spec (length l) (length r)) as [E|E]; cbn [negb].
  2: { rewrite bool_decide_eq_false_2; [done|]. congruence. }
  destruct (decide (0%Z ∈ l)) as [Hl|Hl].
  - assert (0%Z ∉ r) as Hr by tauto.
    assert (l <> r) as N by (intros ->; done).
    assert (forall l r n, strncmp l r n = Ok 0%Z -> n = length l -> n = length r -> 0%Z ∉ r -> l = r) as HS.
    { clear. induction l as [|a l IH]; intros [|b r] n; cbn [length]; intros S -> E Hr; try lia; try done.
      cbn [strncmp] in S. destruct (Z.eqb_spec a b) as [->|?].
      - destruct (Z.eqb_spec b 0) as [->|]; [set_solver|]. f_equal. eapply IH; [exact S|done|lia|set_solver].
      - injection S. lia. }
    assert (exists c, strncmp l r (length l) = Ok c) as [c Hc].
    { clear -E. revert r E. induction l as [|a l IH]; intros [|b r] E; cbn in *; try lia; eauto.
      destruct (a =? b)%Z; [destruct (a =? 0)%Z|]; eauto. }
    rewrite Hc. cbn [mbind res_bind]. destruct (Z.eqb_spec c 0) as [->|?].
    + destruct N. eapply HS; eauto.
    + by rewrite bool_decide_eq_false_2.
  - destruct (strncmp_eq l r E Hl) as (c & -> & Hc). cbn [mbind res_bind]. f_equal.
    destruct (Z.eqb_spec c 0); symmetry;
      [apply bool_decide_eq_true_2|apply bool_decide_eq_false_2]; tauto.
Qed.
(** What does hold for all strings: equal strings compare equal, strings of
    different lengths do not, and == never goes out of bounds. *)
Theorem string_eq_reflexive : forall l r : list Z,
  view_eq l l = Ok true /\ (length l <> length r -> view_eq l r = Ok false).
Proof.
  intros l r. unfold view_eq. rewrite Nat.eqb_refl, strncmp_refl. split; [done|].
  intros H. by rewrite (proj2 (Nat.eqb_neq _ _) H).
Qed.
(** So on strings without NUL, == agrees with < and with hashing. *)
Theorem string_eq_consistent_partial : forall l r : list Z,
  (0%Z ∉ l) -> view_eq l r = Ok true ->
  view_lt l r = Ok false /\ view_lt r l = Ok false /\ hash_bytes l = hash_bytes r.
Proof.
  intros l r Hl E. rewrite string_eq_partial in E by auto. injection E as E.
  apply bool_decide_eq_true_1 in E as ->.
  destruct (view_lt_spec r r) as (b & -> & Hb).
  destruct b; [|done]. by destruct (lex_irrefl r (proj1 Hb eq_refl)).
Qed.
(** "a\0b" == "a\0c" although the two differ, are ordered by < and have
    different hashes. *)
Theorem string_eq_refuted :
  exists l r : list Z, l <> r /\ view_eq l r = Ok true /\ view_lt l r = Ok true /\
    hash_bytes l <> hash_bytes r.
Proof. exists [97; 0; 98]%Z, [97; 0; 99]%Z. by vm_compute. Qed.
Example string_eq_ex :
  view_eq [104; 105]%Z [104; 105]%Z = Ok true /\ view_eq [104; 105]%Z [104; 106]%Z = Ok false /\
  (0%Z ∉ [104; 105]%Z).
Proof. split; [done|]. split; [done|]. by apply (bool_decide_unpack _). Qed.

(** ** C22: < is the lexicographic order by byte value ... *)
Theorem string_lt_lexicographic : forall l r : list Z,
  exists b, view_lt l r = Ok b /\ (b = true <-> lex_lt l r).
Proof. exact view_lt_spec. Qed.
(** ... hence a strict total order in which a proper prefix comes first. *)
Theorem string_lt_strict_total_order : forall l m r : list Z,
  view_lt l l = Ok false /\
  (view_lt l m = Ok true -> view_lt m r = Ok true -> view_lt l r = Ok true) /\
  (view_lt l m = Ok true \/ l = m \/ view_lt m l = Ok true) /\
  (r <> [] -> view_lt l (l ++ r) = Ok true).
Proof.
  assert (forall l r, lex_lt l r -> view_lt l r = Ok true) as T.
  { intros l r H. destruct (view_lt_spec l r) as (b & -> & Hb). by rewrite (proj2 Hb H). }
  assert (forall l r, view_lt l r = Ok true -> lex_lt l r) as T'.
  { intros l r H. destruct (view_lt_spec l r) as (b & E & Hb). apply Hb. congruence. }
  intros l m r. split_and!.
  - destruct (view_lt_spec l l) as ([] & -> & Hb); [|done].
    by destruct (lex_irrefl l (proj1 Hb eq_refl)).
  - intros H1 H2. eapply T, lex_trans; by apply T'.
  - destruct (lex_total l m) as [H|[H|H]]; auto.
  - destruct r as [|b r]; [done|]. intros _. apply T, lex_app.
Qed.
Example string_lt_ex :
  view_lt [97; 98]%Z [97; 200]%Z = Ok true /\ view_lt [97; 98]%Z [97; 98; 0]%Z = Ok true /\
  view_lt [98]%Z [97; 98; 0]%Z = Ok false.
Proof. done. Qed.

(** ** C23: building strings.  [str_view s] reads back every byte of [s]
    (undefined if one was never written). *)
Theorem string_copy_append_terminate : forall v w : list Z,
  (exists s, view_string v = Ok s /\ str_view s = Ok v /\ slen s = length v) /\
  (exists s, view_append v w = Ok s /\ str_view s = Ok (v ++ w) /\ slen s = length v + length w) /\
  (exists s, view_terminate v = Ok s /\ str_view s = Ok (v ++ [0%Z]) /\ slen s = length v + 1).
Proof.
  intros v w. rewrite view_string_eq, append_eq, terminate_eq. split_and!; eexists; (split; [done|]).
  - split; [apply str_view_full|done].
  - replace (length v + length w) with (length (v ++ w)) by (by rewrite app_length).
    split; [apply str_view_full|done].
  - replace (length v + 1) with (length (v ++ [0%Z])) by (by rewrite app_length).
    split; [apply str_view_full|done].
Qed.
Theorem string_clone_same : forall s v,
  slen s <= scap s -> str_view s = Ok v ->
  exists s', str_clone s = Ok s' /\ str_view s' = Ok v /\ slen s' = slen s /\ scap s' = scap s.
Proof.
  intros s v W H. unfold str_clone.
  assert (length (take (slen s) (sdata s)) = slen s) as L by (rewrite take_length; unfold scap in W; lia).
  rewrite memcpy_eq by (rewrite L, replicate_length; lia). cbn [mbind res_bind].
  rewrite L, take_0, Nat.add_0_l, drop_replicate. cbn [app].
  eexists. split; [done|]. unfold str_view, scap in *. cbn [sdata slen].
  rewrite take_app_alt by (by rewrite L). split_and!; [done|done|].
  rewrite app_length, L, replicate_length. lia.
Qed.
(** sub(a, b) is the slice from a to b; anything else stops the program. *)
Theorem string_sub_slice :
  (forall p m r : list Z, view_sub (p ++ m ++ r) (length p) (length p + length m) = Ok m) /\
  (forall v a b, ~ (a <= b <= length v) -> view_sub v a b = Die).
Proof.
  split; [intros; by apply view_sub_app|]. intros v a b H. unfold view_sub.
  destruct (Nat.leb_spec a b); [|done]. destruct (Nat.leb_spec b (length v)); [|done]. lia.
Qed.
(** Reading is bounds checked. *)
Theorem string_index_checked :
  (forall (v : list Z) i, i < length v -> exists b, v !! i = Some b /\ view_get v i = Ok b) /\
  (forall (v : list Z) i, length v <= i -> view_get v i = Die) /\
  (forall s i, slen s <= i -> str_get s i = Die) /\
  (forall s v i b, str_view s = Ok v -> v !! i = Some b -> str_get s i = Ok b).
Proof.
  split_and!.
  - intros v i H. destruct (lookup_lt_is_Some_2 v i H) as [b Hb]. exists b. split; [done|]. by apply view_get_ok.
  - intros v i H. unfold view_get. destruct (Nat.ltb_spec i (length v)); [lia|done].
  - intros s i H. unfold str_get. destruct (Nat.ltb_spec i (slen s)); [lia|done].
  - intros s v i b H Hb. unfold str_view in H. apply all_written_inv in H.
    assert (take (slen s) (sdata s) !! i = Some (Some b)) as Hi by (rewrite H, list_lookup_fmap, Hb; done).
    assert (i < slen s).
    { pose proof (lookup_lt_Some _ _ _ Hi) as L. rewrite take_length in L. lia. }
    rewrite lookup_take in Hi by done. unfold str_get.
    rewrite (proj2 (Nat.ltb_lt _ _)) by done. cbn. by rewrite Hi.
Qed.

(** write(i, text) overwrites exactly the bytes [i, i + length) and answers
    i + length; a position that does not fit stops the program.  Missing: the
    positions for which i + length exceeds 2^64 - 1, see below. *)
Theorem string_write_partial : forall s v (i : Z) text,
  slen s <= scap s -> str_view s = Ok v -> (0 <= i)%Z -> (i + Z.of_nat (length text) < 2 ^ 64)%Z ->
  ((i + Z.of_nat (length text) <= Z.of_nat (slen s))%Z ->
     exists s', str_write s i text = Ok (s', (i + Z.of_nat (length text))%Z) /\
       slen s' = slen s /\ str_view s' = Ok (overwritten v (Z.to_nat i) text)) /\
  ((Z.of_nat (slen s) < i + Z.of_nat (length text))%Z -> str_write s i text = Die).
Proof.
  intros s v i text W H I O. unfold str_write. rewrite wrap_small by (unfold is_u; lia).
  destruct (Z.leb_spec (i + Z.of_nat (length text)) (Z.of_nat (slen s))) as [L|L].
  2: { split; [lia|done]. }
  split; [|lia]. intros _. cbn [assert_ mbind res_bind].
  unfold scap in W.
  rewrite memcpy_eq by (rewrite fmap_length; lia). cbn [mbind res_bind].
  eexists. split; [done|]. split; [done|]. unfold str_view in *. cbn [sdata slen].
  apply all_written_inv in H.
  rewrite fmap_length.
  assert (take (slen s) (take (Z.to_nat i) (sdata s) ++ (Some <$> text) ++ drop (Z.to_nat i + length text) (sdata s))
    = Some <$> overwritten v (Z.to_nat i) text) as ->.
  { unfold overwritten. rewrite !fmap_app, fmap_take, fmap_drop, <- H.
    apply list_eq. intros k.
    destruct (decide (k < slen s)) as [K|K].
    - rewrite lookup_take by done.
      destruct (decide (k < Z.to_nat i)).
      { rewrite !lookup_app_l by (rewrite !take_length; lia). rewrite !lookup_take by lia. done. }
      rewrite !(lookup_app_r (take _ _)) by (rewrite !take_length; lia).
      rewrite !take_length, !Nat.min_l by lia.
      destruct (decide (k - Z.to_nat i < length text)).
      { rewrite !lookup_app_l by (rewrite fmap_length; lia). done. }
      rewrite !lookup_app_r by (rewrite fmap_length; lia). rewrite !lookup_drop, fmap_length.
      rewrite lookup_take by lia. done.
    - rewrite lookup_take_ge by lia. symmetry. apply lookup_ge_None.
      rewrite !app_length, drop_length, !take_length, fmap_length. lia. }
  apply all_written_some.
Qed.
(** The bound check itself wraps: writing two bytes at position 2^64 - 1 of a
    one byte string passes it and writes out of bounds. *)
Theorem string_write_refuted :
  exists s v (i : Z) text, slen s <= scap s /\ str_view s = Ok v /\ is_u 64 i /\
    (Z.of_nat (slen s) < i + Z.of_nat (length text))%Z /\ str_write s i text <> Die.
Proof.
  exists (mk_str [Some 1%Z] 1), [1%Z], (2 ^ 64 - 1)%Z, [5; 6]%Z.
  split; [cbn; lia|]. split; [done|]. split; [done|]. split; [cbn; lia|].
  unfold str_write.
  replace (wrap 64 (2 ^ 64 - 1 + Z.of_nat (length [5; 6]%Z)))%Z with 1%Z by (vm_compute; reflexivity).
  replace (1 <=? Z.of_nat (slen (mk_str [Some 1%Z] 1)))%Z with true by done.
  cbn [assert_ mbind res_bind]. rewrite memcpy_fail; [done|]. cbn [length sdata fmap list_fmap].
  assert (1 <= Z.to_nat (2 ^ 64 - 1)) by lia. lia.
Qed.
(** Single byte write, and set_length. *)
Theorem string_write_char_set_length : forall s v (i : Z) c,
  slen s <= scap s -> str_view s = Ok v -> is_u 64 i ->
  ((i < Z.of_nat (slen s))%Z ->
     exists s', str_write_char s i c = Ok (s', wrap 64 (i + 1)) /\ slen s' = slen s /\
       str_view s' = Ok (<[Z.to_nat i := c]> v)) /\
  ((Z.of_nat (slen s) <= i)%Z -> str_write_char s i c = Die) /\
  (forall n, n <= slen s -> exists s', set_length s n = Ok s' /\ str_view s' = Ok (take n v) /\ scap s' = scap s) /\
  (forall n, scap s < n -> set_length s n = Die).
Proof.
  intros s v i c W H [I _]. split_and!.
  - intros L. unfold str_write_char. rewrite (proj2 (Z.ltb_lt _ _) L). cbn [assert_ mbind res_bind].
    unfold str_set. rewrite (proj2 (Nat.ltb_lt (Z.to_nat i) (slen s))) by lia. cbn [assert_ mbind res_bind].
    unfold scap in W. rewrite (proj2 (Nat.ltb_lt (Z.to_nat i) (length (sdata s)))) by lia. cbn [mbind res_bind].
    eexists. split; [done|]. split; [done|]. unfold str_view in *. cbn [sdata slen].
    apply all_written_inv in H. rewrite take_insert_lt, H, <- list_fmap_insert by lia. apply all_written_some.
  - intros L. unfold str_write_char. destruct (Z.ltb_spec i (Z.of_nat (slen s))); [lia|done].
  - intros n L. rewrite set_length_ok by lia. eexists. split; [done|]. split; [|done].
    unfold str_view in *. cbn [sdata slen]. apply all_written_inv in H.
    replace (take n (sdata s)) with (take n (take (slen s) (sdata s))) by (rewrite take_take; f_equal; lia).
    rewrite H, <- fmap_take. apply all_written_some.
  - intros n L. unfold set_length. destruct (Nat.leb_spec n (scap s)); [lia|done].
Qed.
(** Every sequence of set_length, write and element assignment on a string
    stays inside its allocation: each call either succeeds, leaving the
    capacity as it was and the length within it, or stops the program. *)
Inductive str_op := SetLength (n : nat) | WriteChar (i : Z) (c : Z) | WriteText (i : Z) (t : list Z) | Assign (i : nat) (c : Z).
Definition str_step (s : str) (o : str_op) : res str :=
  match o with
  | SetLength n => set_length s n
  | WriteChar i c => '(s', _) ← str_write_char s i c; Ok s'
  | WriteText i t => '(s', _) ← str_write s i t; Ok s'
  | Assign i c => str_set s i c
  end.
Definition str_run (s : str) (os : list str_op) : res str :=
  fold_left (fun r o => s' ← r; str_step s' o) os (Ok s).
Definition op_representable (o : str_op) : Prop :=
  match o with
  | WriteChar i _ => (0 <= i)%Z
  | WriteText i t => (0 <= i)%Z /\ (i + Z.of_nat (length t) < 2 ^ 64)%Z
  | _ => True
  end.
Lemma str_step_in_bounds s o :
  slen s <= scap s -> op_representable o ->
  str_step s o = Die \/ exists s', str_step s o = Ok s' /\ slen s' <= scap s' /\ scap s' = scap s.
Proof.
  intros W R. unfold scap in *. destruct o as [n|i c|i t|i c]; cbn [str_step].
  - unfold set_length, scap. destruct (Nat.leb_spec n (length (sdata s))); [right|by left].
    eexists. split; [done|]. done.
  - unfold str_write_char. destruct (Z.ltb_spec i (Z.of_nat (slen s))); [right|by left].
    cbn [assert_ mbind res_bind]. unfold str_set. cbn in R.
    rewrite (proj2 (Nat.ltb_lt (Z.to_nat i) (slen s))) by lia. cbn [assert_ mbind res_bind].
    rewrite (proj2 (Nat.ltb_lt _ _)) by lia. cbn [mbind res_bind].
    eexists. split; [done|]. cbn [sdata slen]. by rewrite insert_length.
  - unfold str_write. destruct R as [R1 R2]. rewrite wrap_small by (unfold is_u; lia).
    destruct (Z.leb_spec (i + Z.of_nat (length t)) (Z.of_nat (slen s))); [right|by left].
    cbn [assert_ mbind res_bind]. rewrite memcpy_eq by (rewrite fmap_length; lia). cbn [mbind res_bind].
    eexists. split; [done|]. cbn [sdata slen].
    rewrite !app_length, drop_length, take_length, fmap_length. lia.
  - unfold str_set. destruct (Nat.ltb_spec i (slen s)); [right|by left].
    cbn [assert_ mbind res_bind]. rewrite (proj2 (Nat.ltb_lt _ _)) by lia.
    eexists. split; [done|]. cbn [sdata slen]. by rewrite insert_length.
Qed.
Theorem string_ops_in_bounds_partial : forall capacity (os : list str_op),
  Forall op_representable os ->
  str_run (str_new capacity) os = Die \/
  exists s, str_run (str_new capacity) os = Ok s /\ slen s <= scap s /\ scap s = capacity.
Proof.
  intros capacity os. induction os as [|o os IH] using rev_ind; intros H.
  - right. eexists. split; [done|]. unfold scap. cbn. rewrite replicate_length. lia.
  - apply Forall_app in H as [H1 [H2 _]%Forall_cons].
    unfold str_run in *. rewrite fold_left_app. cbn [fold_left].
    destruct (IH H1) as [->|(s & -> & W & C)]; [by left|]. cbn [mbind res_bind].
    destruct (str_step_in_bounds s o W H2) as [->|(s' & -> & W' & C')]; [by left|].
    right. exists s'. rewrite <- C. done.
Qed.
Example string_build_ex :
  (s ← view_append [97; 98]%Z [99]%Z; '(s', i) ← str_write s 1 [120; 121]%Z; v ← str_view s'; Ok (v, i))
  = Ok ([97; 120; 121]%Z, 3%Z) /\
  (s ← str_run (str_new 4) [SetLength 2; WriteText 0 [1; 2]%Z; Assign 1 7%Z]; str_view s) = Ok [1; 7]%Z /\
  str_run (str_new 4) [SetLength 2; WriteText 1 [1; 2]%Z] = Die /\
  view_sub [97; 98; 99; 100]%Z 1 3 = Ok [98; 99]%Z.
Proof. by vm_compute. Qed.

(** ** C24: taking paths apart *)
Theorem path_split_lossless : forall s : list Z,
  exists dir file, remove_file_suffix s = Ok dir /\ file_suffix s = Ok file /\ dir ++ file = s /\
    (* the file part has no separator unless nothing was split off *)
    (Forall (fun b => ~ separator b) file \/ dir = []) /\
    (* the directory part is empty or ends in a separator *)
    (dir = [] \/ exists d c, dir = d ++ [c] /\ separator c).
Proof.
  intros s. unfold remove_file_suffix, file_suffix, tail_from.
  destruct (Nat.eqb_spec (length s) 0) as [E|E].
  { exists [], []. destruct s; [|done]. split_and!; auto. }
  destruct (scan_back_spec is_sep s (length s - 1)) as (j & f & -> & L & N & T & F); [lia|].
  cbn [mbind res_bind]. eexists _, _. split; [done|]. split; [done|].
  split; [apply take_drop|].
  assert (forall b, is_sep b = true <-> separator b) as HS.
  { intros b. unfold is_sep, separator. rewrite orb_true_iff, !Z.eqb_eq. lia. }
  destruct f.
  - destruct (T eq_refl) as (P & b & Hb & Sb). split.
    + left. apply Forall_forall. intros x (k & Hk)%elem_of_list_lookup.
      rewrite lookup_drop in Hk. rewrite <- HS. intros X.
      rewrite (N (j + 1 + k) x) in X; [done| |done].
      pose proof (lookup_lt_Some _ _ _ Hk). lia.
    + right. exists (take j s), b. rewrite HS in Sb. split; [|done].
      rewrite Nat.add_1_r. by apply take_S_r.
  - rewrite (F eq_refl). split; auto.
Qed.
Theorem path_extension_suffix : forall s : list Z,
  exists file stem ext, file_suffix s = Ok file /\ file_extension s = Ok ext /\ file = stem ++ ext /\
    (* no dot in it, unless the whole path is returned; what precedes it ends
       in a dot or a separator *)
    (Forall (fun b => b <> 46%Z /\ ~ separator b) ext \/ ext = s) /\
    (stem = [] \/ exists d, stem = d ++ [46%Z]).
Proof.
  intros s. unfold file_extension, file_suffix, tail_from.
  destruct (Nat.eqb_spec (length s) 0) as [E|E].
  { exists [], [], []. split_and!; auto. }
  destruct (scan_back_spec is_sep s (length s - 1)) as (j & f & -> & L & N & T & F); [lia|].
  destruct (scan_back_spec is_dot_sep s (length s - 1)) as (j' & f' & -> & L' & N' & T' & F'); [lia|].
  cbn [mbind res_bind].
  assert (forall b, is_dot_sep b = true <-> b = 46%Z \/ separator b) as HS.
  { intros b. unfold is_dot_sep, separator. rewrite !orb_true_iff, !Z.eqb_eq. lia. }
  assert (forall b, is_sep b = true <-> separator b) as HS'.
  { intros b. unfold is_sep, separator. rewrite orb_true_iff, !Z.eqb_eq. lia. }
  assert (j + (if f then 1 else 0) <= j' + (if f' then 1 else 0)) as J.
  { destruct f; [|rewrite (F eq_refl); lia]. destruct (T eq_refl) as (P & b & Hb & Sb).
    destruct (decide (j' < j)) as [A|A].
    - exfalso. assert (is_dot_sep b = true) as X by (apply HS; right; by apply HS').
      rewrite (N' j b) in X; [done|lia|done].
    - destruct f'; [lia|]. pose proof (F' eq_refl). lia. }
  set (a := j + (if f then 1 else 0)) in *. set (a' := j' + (if f' then 1 else 0)) in *.
  exists (drop a s), (take (a' - a) (drop a s)), (drop a' s). split_and!; try done.
  - assert (a' <= length s) by (subst a'; destruct f'; lia).
    rewrite <- (take_drop (a' - a) (drop a s)) at 1. f_equal. rewrite drop_drop. f_equal. lia.
  - destruct f'.
    + left. apply Forall_forall. intros x (k & Hk)%elem_of_list_lookup.
      rewrite lookup_drop in Hk. subst a'.
      assert (is_dot_sep x = false) as X.
      { apply (N' (j' + 1 + k)); [|done]. pose proof (lookup_lt_Some _ _ _ Hk). lia. }
      split; intros Y; rewrite (proj2 (HS x)) in X by auto; done.
    + right. subst a'. rewrite (F' eq_refl). done.
  - destruct (decide (a' <= a)) as [A|A].
    { left. replace (a' - a) with 0 by lia. apply take_0. }
    right. assert (f' = true) as Ef.
    { destruct f'; [done|]. exfalso. pose proof (F' eq_refl). subst a'. lia. }
    subst f'. destruct (T' eq_refl) as (P' & c & Hc & Sc). subst a'.
    exists (take (j' - a) (drop a s)).
    replace (j' + 1 - a) with (S (j' - a)) by lia.
    rewrite (take_S_r _ _ c).
    2: { rewrite lookup_drop. rewrite <- Hc. f_equal. lia. }
    f_equal. f_equal. apply HS in Sc as [->|Sc]; [done|]. exfalso.
    assert (is_sep c = true) as X by (by apply HS'). assert (j < j' \/ j = j' /\ f = false) as [Y|[Y ->]].
    { subst a. destruct f; lia. }
    + rewrite (N j' c) in X; [done|lia|done].
    + pose proof (F eq_refl). lia.
Qed.
(** "dir/a.txt", and the two edge cases: a separator in first position does
    not split, and the extension of a name without a dot is the name. *)
Example path_ex :
  remove_file_suffix [100; 47; 97; 46; 116]%Z = Ok [100; 47]%Z /\ file_suffix [100; 47; 97; 46; 116]%Z = Ok [97; 46; 116]%Z /\
  file_extension [100; 47; 97; 46; 116]%Z = Ok [116]%Z /\ file_suffix [47; 97]%Z = Ok [47; 97]%Z /\
  file_extension [100; 47; 97]%Z = Ok [97]%Z.
Proof. by vm_compute. Qed.

(** ** C28: parsers *)
(** Every string is whitespace followed by something that does not start with
    whitespace; skip_whitespace returns the latter. *)
Theorem skip_whitespace_exact :
  (forall ws r, Forall white ws -> starts_without white r -> skip_whitespace (ws ++ r) = Ok r) /\
  (forall s, exists ws r, s = ws ++ r /\ Forall white ws /\ starts_without white r).
Proof.
  split; [|apply white_split; apply _].
  intros ws r Hw Hr. unfold skip_whitespace. rewrite app_length.
  rewrite (skip_loop_start ws r Hw Hr). cbn [mbind res_bind].
  rewrite <- app_length. by apply view_sub_tail.
Qed.

(** parse_string returns the first token and what follows the whitespace
    character after it.  Missing: when the token is the last thing in the
    input but for one whitespace character, or is a single character ending
    the input, where the function is wrong; see parse_string_refuted. *)
Theorem parse_string_partial : forall ws tok (w : Z) rest,
  Forall white ws -> Forall (fun b => ~ white b) tok -> tok <> [] -> white w ->
  (rest <> [] -> parse_string (ws ++ tok ++ w :: rest) = Ok (Some (tok, rest))) /\
  (2 <= length tok -> parse_string (ws ++ tok) = Ok (Some (tok, []))) /\
  parse_string ws = Ok None.
Proof.
  intros ws tok w rest Hw Ht Nt Hws.
  assert (forall r, starts_without white (tok ++ r)) as Hst.
  { intros r. destruct tok as [|b tok]; [done|]. cbn. by apply Forall_cons in Ht as [? _]. }
  split_and!.
  - intros Hr. unfold parse_string. rewrite (app_length ws).
    rewrite (skip_loop_start ws (tok ++ w :: rest) Hw (Hst _)).
    cbn [mbind res_bind].
    replace (length ws + length (tok ++ w :: rest) - length ws) with (length tok + length (w :: rest))
      by (rewrite app_length; lia).
    pose proof (parse_string_walk ws [] tok (w :: rest) Ht) as P.
    cbn [app] in P. rewrite Nat.add_0_r in P. rewrite P by done. cbn [length parse_string_loop].
    assert (length rest <> 0) by (by destruct rest).
    assert ((S (length ws + length tok) =? length (ws ++ tok ++ w :: rest)) = false) as ->.
    { apply Nat.eqb_neq. rewrite !app_length. cbn [length]. lia. }
    cbn [andb].
    rewrite (view_get_ok _ _ w).
    2: { rewrite lookup_app_r by lia. rewrite lookup_app_r by lia.
         replace (length ws + length tok - length ws - length tok) with 0 by lia. done. }
    cbn [mbind res_bind]. rewrite (proj2 (is_whitespace_spec w) Hws).
    rewrite (view_sub_app ws tok (w :: rest) (length ws) (length ws + length tok)) by lia. cbn [mbind res_bind].
    replace (ws ++ tok ++ w :: rest) with ((ws ++ tok ++ [w]) ++ rest) by (by rewrite <- !app_assoc).
    rewrite view_sub_tail by (rewrite ?app_length; cbn [length]; lia). done.
  - intros L. destruct tok as [|b tok _] using rev_ind; [done|]. clear Nt.
    apply Forall_app in Ht as [Ht Hb]. rewrite app_length in L. cbn [length] in L.
    unfold parse_string. specialize (Hst []). rewrite app_nil_r in Hst.
    rewrite (app_length ws). rewrite (skip_loop_start ws _ Hw Hst).
    cbn [mbind res_bind].
    replace (length ws + length (tok ++ [b]) - length ws) with (length tok + length [b])
      by (rewrite app_length; lia).
    pose proof (parse_string_walk ws [] tok [b] Ht) as P.
    cbn [app] in P. rewrite Nat.add_0_r in P. rewrite P by done. cbn [length parse_string_loop].
    rewrite (proj2 (Nat.eqb_eq _ _)) by (rewrite !app_length; cbn [length]; lia).
    rewrite (proj2 (Nat.ltb_lt _ _)) by lia. cbn [andb].
    rewrite view_sub_tail by (rewrite ?app_length; cbn [length]; lia). done.
  - unfold parse_string.
    pose proof (skip_loop_start ws [] Hw I) as S. cbn [length] in S.
    rewrite app_nil_r, Nat.add_0_r in S. rewrite S. cbn [mbind res_bind]. by rewrite Nat.sub_diag.
Qed.
(** A final one-character token is not found, and a single final whitespace
    character becomes part of the token. *)
Theorem parse_string_refuted :
  parse_string [97]%Z = Ok None /\ parse_string [97; 32]%Z = Ok (Some ([97; 32]%Z, [])) /\
  parse_string [32; 97; 98; 10]%Z = Ok (Some ([97; 98; 10]%Z, [])).
Proof. by vm_compute. Qed.
Example parse_string_ex :
  parse_string [32; 97; 98; 32; 99; 100]%Z = Ok (Some ([97; 98]%Z, [99; 100]%Z)) /\
  skip_whitespace [32; 9; 12; 32]%Z = Ok [12; 32]%Z.
Proof. by vm_compute. Qed.

(** parse_i64 reads the longest number at the start of the text, saturating,
    and returns what follows it; without one it returns nothing. *)
Theorem parse_i64_exact :
  (forall ws t n rest, Forall blank ws -> int_text t n -> starts_without digit rest ->
     parse_i64 (ws ++ t ++ rest) = Ok (Some (nearest_i64 n, rest))) /\
  (forall s, (forall ws t n rest, Forall blank ws -> int_text t n -> s <> ws ++ t ++ rest) ->
     parse_i64 s = Ok None).
Proof.
  split.
  - intros ws t n rest Hw Ht Hr. rewrite parse_i64_eq.
    rewrite <- !app_assoc.
    rewrite (strtoll_number ws t n (rest ++ [0%Z])).
    2-3: done. 2: { destruct rest; [cbn; unfold digit; lia|exact Hr]. }
    assert (length t <> 0) as L.
    { destruct Ht as [t n H|t n H|t n H]; [|done..]. apply decimal_digits in H as (_ & N & _). by destruct t. }
    destruct (Nat.eqb_spec (length ws + length t) 0); [lia|].
    rewrite app_assoc. rewrite view_sub_tail by (rewrite ?app_length; lia).
    cbn [mbind res_bind]. by rewrite clamp_nearest.
  - intros s H. rewrite parse_i64_eq. destruct (strtoll (s ++ [0%Z])) as [v k] eqn:E.
    destruct (Nat.eqb_spec k 0) as [->|N]; [done|]. exfalso.
    destruct (strtoll_inv _ _ _ E N) as (ws & t & n & Hw & Ht & _ & rest & B).
    destruct rest as [|b rest _] using rev_ind.
    + rewrite app_nil_r in B. assert (Forall digit t \/ exists t', Forall digit t' /\ t' <> [] /\ (t = 43%Z :: t' \/ t = 45%Z :: t')) as D.
      { destruct Ht as [t n D|t n D|t n D]; apply decimal_digits in D as (F & N' & _); eauto 10. }
      assert (t <> []) as Nt by (destruct Ht as [t n D0|t n D0|t n D0]; [|done..]; apply decimal_digits in D0; tauto).
      destruct t as [|x t _] using rev_ind; [done|].
      rewrite app_assoc in B. apply app_inj_tail in B as [_ <-].
      assert (digit 0%Z) as Z0.
      { destruct D as [D|(t' & D & Nt' & [E'|E'])].
        - apply Forall_app in D as [_ [? _]%Forall_cons]. done.
        - destruct t' as [|y t' _] using rev_ind; [done|]. rewrite app_comm_cons in E'.
          apply app_inj_tail in E' as [_ <-]. apply Forall_app in D as [_ [? _]%Forall_cons]. done.
        - destruct t' as [|y t' _] using rev_ind; [done|]. rewrite app_comm_cons in E'.
          apply app_inj_tail in E' as [_ <-]. apply Forall_app in D as [_ [? _]%Forall_cons]. done. }
      unfold digit in Z0. lia.
    + rewrite !app_assoc in B. apply app_inj_tail in B as [B _].
      rewrite <- app_assoc in B. by eapply H.
Qed.
(** In particular for every i64 and every text of it. *)
Theorem parse_i64_round_trip : forall t n rest,
  int_text t n -> is_i 64 n -> starts_without digit rest -> parse_i64 (t ++ rest) = Ok (Some (n, rest)).
Proof.
  intros t n rest Ht [I1 I2] Hr.
  change (t ++ rest) with ([] ++ t ++ rest).
  rewrite (proj1 parse_i64_exact [] t n rest) by (done || constructor). do 3 f_equal.
  unfold nearest_i64. change (2 ^ (64 - 1))%Z with (2 ^ 63)%Z in *.
  destruct (Z.ltb_spec n (- 2 ^ 63)), (Z.ltb_spec (2 ^ 63 - 1) n); lia.
Qed.
Example parse_i64_ex :
  int_text [45; 52; 50]%Z (-42)%Z /\ parse_i64 [32; 45; 52; 50; 120]%Z = Ok (Some ((-42)%Z, [120]%Z)) /\
  parse_i64 [45; 120]%Z = Ok None.
Proof.
  split; [|by vm_compute]. apply (int_minus [52; 50]%Z 42%Z). apply (decimal_snoc [52]%Z 4 2); [|lia].
  apply (decimal_digit 4). lia.
Qed.

(** ** C72: ASCII helpers, for every byte *)
Theorem ascii_case : forall c, is_u 8 c ->
  ((97 <= c <= 122)%Z -> to_uppercase c = (c - 32)%Z /\ to_lowercase (c - 32) = c) /\
  ((65 <= c <= 90)%Z -> to_lowercase c = (c + 32)%Z /\ to_uppercase (c + 32) = c) /\
  (~ (97 <= c <= 122)%Z -> to_uppercase c = c) /\ (~ (65 <= c <= 90)%Z -> to_lowercase c = c) /\
  to_uppercase (to_uppercase c) = to_uppercase c /\ to_lowercase (to_lowercase c) = to_lowercase c /\
  is_u 8 (to_uppercase c) /\ is_u 8 (to_lowercase c) /\
  (is_whitespace c = true <-> white c).
Proof.
  intros c [H1 H2]. split_and!.
  9: apply is_whitespace_spec.
  all: unfold to_uppercase, to_lowercase, is_u in *.
  all: repeat match goal with
    | |- context [((?a <=? ?b) && (?x <=? ?d))%Z] =>
        destruct (Z.leb_spec a b), (Z.leb_spec x d); cbn [andb]
    end; cbn [andb] in *; try lia.
Qed.
Example ascii_ex : to_uppercase 104 = 72%Z /\ to_lowercase 91 = 91%Z /\ is_whitespace 12 = false.
Proof. done. Qed.

(** ** C73: enum names *)
(** A list of enumerators with distinct names; two names may share a value. *)
Section enum.
  Context {E : Type} `{EqDecision E}.

  Lemma enum_name_fold (ms : list (list Z * E)) v d :
    fold_left (fun ret m => if decide (v = m.2) then m.1 else ret) ms d = d \/
    exists n, (n, v) ∈ ms /\ fold_left (fun ret m => if decide (v = m.2) then m.1 else ret) ms d = n.
  Proof.
    revert d. induction ms as [|[n w] ms IH]; intros d; [by left|]. cbn [fold_left snd fst].
    destruct (IH (if decide (v = w) then n else d)) as [->|(n' & H & ->)].
    - destruct (decide (v = w)) as [->|]; [right|by left]. exists n. split; [left|done].
    - right. exists n'. split; [by right|done].
  Qed.
  Lemma enum_name_fold_in (ms : list (list Z * E)) v d :
    v ∈ ms.*2 -> exists n, (n, v) ∈ ms /\ fold_left (fun ret m => if decide (v = m.2) then m.1 else ret) ms d = n.
  Proof.
    revert d. induction ms as [|[n w] ms IH]; intros d; [by intros ?%elem_of_nil|]. cbn [fold_left snd fst fmap list_fmap].
    intros [->|H]%elem_of_cons.
    - destruct (enum_name_fold ms w (if decide (w = w) then n else d)) as [->|(n' & H & ->)].
      + destruct (decide (w = w)); [|done]. exists n. split; [left|done].
      + exists n'. split; [by right|done].
    - destruct (IH (if decide (v = w) then n else d) H) as (n' & Hn & ->). exists n'. split; [by right|done].
  Qed.

  Lemma parse_enum_loop_spec (ms : list (list Z * E)) name rest ret :
    (0%Z ∉ name) -> NoDup ms.*1 ->
    (forall v, (name, v) ∈ ms -> parse_enum_loop ms name rest ret = Ok (Some (v, rest))) /\
    (name ∉ ms.*1 -> parse_enum_loop ms name rest ret = Ok ret).
  Proof.
    intros Hn. revert ret. induction ms as [|[c w] ms IH]; intros ret; cbn [parse_enum_loop fmap list_fmap fst].
    - intros _. split; [by intros v ?%elem_of_nil|done].
    - intros [Nc ND]%NoDup_cons. rewrite string_eq_partial by auto. cbn [mbind res_bind].
      destruct (IH (if bool_decide (name = c) then Some (w, rest) else ret) ND) as [H1 H2]. split.
      + intros v [[= <- <-]|H]%elem_of_cons.
        * rewrite H2 by done. by rewrite bool_decide_eq_true_2.
        * by apply H1.
      + intros [N M]%not_elem_of_cons. rewrite H2 by done. by rewrite bool_decide_eq_false_2.
  Qed.

  (** The text enum_name gives parses back to the value.  Missing: names of
      one character, which parse_string does not find at the end of the text
      (and the other parse_string cases above). *)
  Theorem enum_round_trip_partial : forall (members : list (list Z * E)) (v : E) (w : Z) (rest : list Z),
    NoDup members.*1 -> v ∈ members.*2 ->
    Forall (fun m => 2 <= length m.1 /\ Forall (fun b => ~ white b) m.1 /\ 0%Z ∉ m.1) members ->
    (enum_name members v, v) ∈ members /\
    parse_enum members (enum_name members v) = Ok (Some (v, [])) /\
    (white w -> rest <> [] -> parse_enum members (enum_name members v ++ w :: rest) = Ok (Some (v, rest))).
  Proof.
    intros ms v w rest ND Hv HF.
    destruct (enum_name_fold_in ms v [73; 110; 118; 97; 108; 105; 100]%Z Hv) as (n & Hn & E').
    fold (enum_name ms v) in E'. rewrite E'. split; [done|].
    rewrite Forall_forall in HF. destruct (HF _ Hn) as (L & W & Z). cbn [fst] in *.
    assert (n <> []) as Nn by (destruct n; [cbn in L; lia|done]).
    assert (white 32) as W32 by (unfold white; lia).
    unfold parse_enum. split.
    - destruct (parse_string_partial [] n 32 [] (List.Forall_nil _) W Nn W32) as (_ & P & _).
      cbn [app] in P. rewrite P by done. cbn [mbind res_bind]. by apply parse_enum_loop_spec.
    - intros Hw Hr. destruct (parse_string_partial [] n w rest (List.Forall_nil _) W Nn Hw) as (P & _).
      cbn [app] in P. rewrite P by done. cbn [mbind res_bind]. by apply parse_enum_loop_spec.
  Qed.

  (** A token that is no enumerator's name is rejected. *)
  Theorem parse_enum_unknown : forall (members : list (list Z * E)) (s name rest : list Z),
    NoDup members.*1 -> (0%Z ∉ name) -> parse_string s = Ok (Some (name, rest)) -> name ∉ members.*1 ->
    parse_enum members s = Ok None.
  Proof.
    intros ms s name rest ND Z P N. unfold parse_enum. rewrite P. cbn [mbind res_bind].
    by apply parse_enum_loop_spec.
  Qed.
End enum.
(** enum { A }: the name is "A" and does not parse. *)
Theorem enum_round_trip_refuted :
  exists members : list (list Z * Z), NoDup members.*1 /\ 7%Z ∈ members.*2 /\
    parse_enum members (enum_name members 7%Z) = Ok None.
Proof.
  exists [([65]%Z, 7%Z)]. split; [by apply (bool_decide_unpack _)|]. split; [by apply (bool_decide_unpack _)|].
  by vm_compute.
Qed.
Example enum_ex :
  let ms := [([79; 110]%Z, 1%Z); ([79; 102; 102]%Z, 0%Z); ([89; 101; 115]%Z, 1%Z)] in
  enum_name ms 1%Z = [89; 101; 115]%Z /\ parse_enum ms [32; 79; 110; 32; 33]%Z = Ok (Some (1%Z, [33]%Z)) /\
  parse_enum ms [79; 110; 110]%Z = Ok None.
Proof. by vm_compute. Qed.

Print Assumptions string_eq_partial.
Print Assumptions string_eq_reflexive.
Print Assumptions string_eq_consistent_partial.
Print Assumptions string_eq_refuted.
Print Assumptions string_lt_lexicographic.
Print Assumptions string_lt_strict_total_order.
Print Assumptions string_copy_append_terminate.
Print Assumptions string_clone_same.
Print Assumptions string_sub_slice.
Print Assumptions string_index_checked.
Print Assumptions string_write_partial.
Print Assumptions string_write_refuted.
Print Assumptions string_write_char_set_length.
Print Assumptions string_ops_in_bounds_partial.
Print Assumptions path_split_lossless.
Print Assumptions path_extension_suffix.
Print Assumptions skip_whitespace_exact.
Print Assumptions parse_string_partial.
Print Assumptions parse_string_refuted.
Print Assumptions parse_i64_exact.
Print Assumptions parse_i64_round_trip.
Print Assumptions ascii_case.
Print Assumptions enum_round_trip_partial.
Print Assumptions parse_enum_unknown.
Print Assumptions enum_round_trip_refuted.
