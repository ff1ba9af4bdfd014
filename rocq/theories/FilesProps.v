(** C64, C65, C76, C77: files, the watcher, and the asynchronous file operations. *)
From stdpp Require Import gmap fin_maps.
From Verif Require Import Base Word FilesModel FilesSpec.
Open Scope Z_scope.

Lemma open_rd_spec g p s : open_rd g p s = (None, s) \/ exists f fd, files s !! c_str p = Some f /\ g = true /\ readable f = true /\ room s /\
  fds s !! fd = None /\ open_rd g p s = (Some fd, with_fds (insert fd (Desc (c_str p) false 0)) s).
Proof.
  unfold open_rd. destruct (files s !! c_str p) as [f|] eqn:E; [|by left]. destruct g; [|by left]. destruct (readable f) eqn:R; [|by left]. cbn [andb].
  case_bool_decide as D; [|by left]. right. exists f, (fresh (dom (fds s))). split_and!; try done. apply not_elem_of_dom, is_fresh.
Qed.
Lemma open_rd_ok p s f : files s !! c_str p = Some f -> readable f = true -> room s ->
  exists fd, fds s !! fd = None /\ open_rd true p s = (Some fd, with_fds (insert fd (Desc (c_str p) false 0)) s).
Proof.
  intros E R Hr. unfold open_rd. rewrite E, R. cbn [andb]. rewrite bool_decide_true by done. exists (fresh (dom (fds s))). split; [|done]. apply not_elem_of_dom, is_fresh.
Qed.
Lemma close_opened fd d s : fds s !! fd = None -> close fd (with_fds (insert fd d) s) = s.
Proof. intros H. unfold close, with_fds. cbn. rewrite delete_insert by done. by destruct s. Qed.

Lemma read_opened g a p s f fd : files s !! c_str p = Some f -> fds s !! fd = None ->
  open_rd g p s = (Some fd, with_fds (insert fd (Desc (c_str p) false 0)) s) ->
  read g a p s = match contents f with
    | Pipe => Die
    | Regular d => if Z.of_nat (length d) <=? 4294967295 then
        match a with
        | Refuse => Ok (None, with_fds (insert fd (Desc (c_str p) false 0)) s)
        | Upto n => let k := Z.to_nat (Z.min (Z.of_nat n) (Z.min max_rw (Z.of_nat (length d)))) in Ok (Some (take k d ++ replicate (length d - length (take k d)) 0), s)
        end else Die
    end.
Proof.
  intros E F Eo. unfold read. rewrite Eo. set (s1 := with_fds _ s).
  assert (seek_end fd s1 = match contents f with Regular x => Z.of_nat (length x) | Pipe => -1 end) as ->.
  { unfold seek_end, s1, with_fds. cbn [fds]. rewrite lookup_insert. cbn [d_name files]. rewrite E. by destruct f as [[d|] r w m]. }
  destruct (contents f) as [d|] eqn:Ec; [|done]. destruct (Z.leb_spec (Z.of_nat (length d)) 4294967295); [|done]. cbn [assert_ mbind res_bind].
  rewrite (proj2 (Z.leb_le 0 _)) by lia. cbn [assert_ mbind res_bind].
  destruct a as [|n]; [done|]. unfold sys_read, s1 at 1 2, with_fds. cbn [fds files]. rewrite lookup_insert, E. destruct f as [[d0|] r w m]; [|done]. cbn in Ec. injection Ec as ->.
  rewrite drop_0, Nat2Z.id. f_equal. f_equal. by apply close_opened.
Qed.

(** ** Reading *)
(** A file is read whole, if the system reads it in one go. *)
Theorem files_read_exact p s d n : has s p d -> room s -> (length d <= n)%nat -> Z.of_nat (length d) <= 2147479552 ->
  read true (Upto n) p s = Ok (Some d, s).
Proof.
  intros (w & m & E) Hr Hn Hm. destruct (open_rd_ok p s _ E eq_refl Hr) as (fd & F & Eo). rewrite (read_opened _ _ _ _ _ _ E F Eo). cbn [contents].
  rewrite (proj2 (Z.leb_le _ _)) by lia. unfold max_rw. rewrite Z.min_r by lia. rewrite Z.min_r by lia. rewrite Nat2Z.id, take_ge by lia. rewrite Nat.sub_diag. cbn. by rewrite app_nil_r.
Qed.
(** What is returned otherwise: the bytes the system gave, then zeros. *)
Theorem files_read_sound g a p s v s' : read g a p s = Ok (Some v, s') ->
  g = true /\ room s /\ s' = s /\ exists d n k, has s p d /\ a = Upto n /\ (k <= n)%nat /\ v = take k d ++ replicate (length d - k) 0 /\ length v = length d.
Proof.
  intros H. destruct (open_rd_spec g p s) as [E|(f & fd & E & -> & R & Hr & F & Eo)]; [unfold read in H; by rewrite E in H|]. rewrite (read_opened _ _ _ _ _ _ E F Eo) in H.
  destruct f as [[d|] r w m]; cbn [readable contents] in *; subst r; [|done].
  destruct (Z.leb_spec (Z.of_nat (length d)) 4294967295); [|done]. destruct a as [|n]; [done|]. cbn zeta in H.
  set (k := Z.to_nat _) in H. injection H as <- <-. split_and!; try done. exists d, n, (k `min` length d)%nat. split_and!.
  - by eexists _, _.
  - done.
  - unfold k. lia.
  - rewrite take_length. f_equal. destruct (le_lt_dec k (length d)); [by rewrite Nat.min_l by lia|]. rewrite Nat.min_r by lia. by rewrite !take_ge by lia.
  - rewrite app_length, take_length, replicate_length. lia.
Qed.
(** Nothing else happens to files: a failed read may only leave a descriptor behind. *)
Theorem files_read_fails g a p s s' : read g a p s = Ok (None, s') ->
  files s' = files s /\ (s' = s /\ ((forall d, ~ has s p d) \/ g = false \/ ~ room s) \/ size (fds s') = S (size (fds s)) /\ a = Refuse).
Proof.
  intros H. destruct (open_rd_spec g p s) as [E|(f & fd & E & -> & R & Hr & F & Eo)].
  - unfold read in H. rewrite E in H. injection H as <-. split; [done|]. left. split; [done|]. destruct g; [|by auto]. destruct (decide (size (fds s) < limit s)%nat) as [Hr|]; [|by auto].
    left. intros d (w & m & D). destruct (open_rd_ok p s _ D eq_refl Hr) as (fd & _ & X). congruence.
  - rewrite (read_opened _ _ _ _ _ _ E F Eo) in H. destruct f as [[d|] r w m]; cbn [readable contents] in *; subst r; [|done].
    destruct (Z.leb_spec (Z.of_nat (length d)) 4294967295); [|done]. destruct a as [|n]; [|done]. injection H as <-. cbn. split; [done|]. right. split; [|done]. by rewrite map_size_insert_None.
Qed.
(** Reading stops the program on a pipe and above 2^32-1 bytes, and is never undefined. *)
Theorem files_read_dies g a p s :
  match read g a p s with
  | Ok _ => True
  | Die => exists f, files s !! c_str p = Some f /\ (contents f = Pipe \/ exists d, contents f = Regular d /\ 2 ^ 32 <= Z.of_nat (length d))
  | UB | Diverge => False
  end.
Proof.
  destruct (open_rd_spec g p s) as [E|(f & fd & E & -> & R & Hr & F & Eo)]; [unfold read; by rewrite E|].
  rewrite (read_opened _ _ _ _ _ _ E F Eo). destruct f as [[d|] r w m]; cbn [contents].
  - destruct (Z.leb_spec (Z.of_nat (length d)) 4294967295); [by destruct a|]. eexists. split; [done|]. right. exists d. split; [done|]. lia.
  - eexists. split; [done|]. by left.
Qed.
(** A short read is reported as success, with zeros in place of the rest of the file. *)
Theorem files_read_short_refuted : exists p s d v, has s p d /\ room s /\ read true (Upto 1) p s = Ok (Some v, s) /\ v <> d.
Proof.
  set (s := Os {[ [97] := File (Regular [5; 6; 7]) true true 0 ]} ∅ 8 0). exists [97], s, [5; 6; 7], [5; 0; 0].
  assert (files s !! c_str [97] = Some (File (Regular [5; 6; 7]) true true 0)) as E by done.
  assert (room s) as Hr by (unfold room; cbn; rewrite map_size_empty; lia). split_and!; [by eexists _, _|done| |done].
  destruct (open_rd_ok [97] s _ E eq_refl Hr) as (fd & F & Eo). by rewrite (read_opened _ _ _ _ _ _ E F Eo).
Qed.

(** ** Writing: Files::write never writes. *)
Theorem files_write_refuted g a p data s : exists s', write g a p data s = (false, s') /\ files s' = files s.
Proof.
  unfold write. destruct (open_rd_spec g p s) as [->|(f & fd & E & -> & R & Hr & F & ->)]; [by eexists|].
  unfold sys_write. cbn. rewrite lookup_insert. destruct a; by eexists.
Qed.
(** and if the file exists it leaves a descriptor open each time, until no file can be opened any more. *)
Fixpoint write_many (p : list Z) (data : list Z) (n : nat) (s : os) : os :=
  match n with O => s | S n => write_many p data n (snd (write true (Upto (length data)) p data s)) end.
Lemma write_opens p data s d : has s p d -> room s -> let s' := snd (write true (Upto (length data)) p data s) in
  has s' p d /\ size (fds s') = S (size (fds s)) /\ limit s' = limit s.
Proof.
  intros (w & m & E) Hr. cbn. unfold write. destruct (open_rd_ok p s _ E eq_refl Hr) as (fd & F & ->). unfold sys_write. cbn. rewrite lookup_insert. cbn.
  split_and!; [by eexists _, _|by rewrite map_size_insert_None|done].
Qed.
Theorem files_write_exhausts p data s d q g a : has s p d -> (size (fds s) <= limit s)%nat ->
  let s' := write_many p data (limit s - size (fds s)) s in read g a q s' = Ok (None, s').
Proof.
  remember (limit s - size (fds s))%nat as n eqn:N. revert s N. induction n as [|n IH]; intros s N H L; cbn [write_many].
  - unfold read. destruct (open_rd_spec g q s) as [->|(f & fd & E & -> & R & Hr & F & ->)]; [done|]. unfold room in Hr. lia.
  - destruct (write_opens p data s d H) as (A & B & C); [unfold room; lia|]. apply IH; [rewrite B, C; lia|done|lia].
Qed.

(** ** Async::write *)
Lemma open_wr_spec g mode p s : open_wr g mode p s = (None, s) \/ exists fd f, fds s !! fd = None /\ g = true /\
  match files s !! c_str p with
  | Some f0 => f = File (match contents f0 with Regular _ => Regular [] | Pipe => Pipe end) (readable f0) (writable f0) (match contents f0 with Regular _ => now s | Pipe => mtime f0 end)
  | None => f = File (Regular []) (fst mode) (snd mode) (now s)
  end /\
  open_wr g mode p s = (Some fd, with_fds (insert fd (Desc (c_str p) true 0)) (with_files (insert (c_str p) f) s)).
Proof.
  unfold open_wr. destruct g; [|by left]. cbn [andb]. case_bool_decide as D; [|by left].
  assert (fds s !! fresh (dom (fds s)) = None) as Fr by apply not_elem_of_dom, is_fresh.
  destruct (files s !! c_str p) as [[[d|] r [] m]|] eqn:E; try (by left); right; eexists _, _; split_and!; try done.
  cbn. do 2 f_equal. unfold with_fds, with_files. cbn. destruct s. cbn in *. f_equal. f_equal. symmetry. by apply insert_id.
Qed.
(** After a success with nothing cut short, the file holds the data, and reading it gives the data if it may be read. *)
Theorem async_roundtrip_partial g mode a p d s s1 : async_write g mode a p d s = (true, s1) ->
  (forall f, files s !! c_str p = Some f -> contents f <> Pipe) ->
  only s s1 (c_str p) /\ exists n f d', a = Upto n /\ files s1 !! c_str p = Some f /\ contents f = Regular d' /\ mtime f = now s /\
    readable f = (match files s !! c_str p with Some f0 => readable f0 | None => fst mode end) /\
    d' = take (Z.to_nat (Z.min (Z.of_nat n) 2147479552)) d /\
    ((length d <= n)%nat -> Z.of_nat (length d) <= 2147479552 -> readable f = true -> room s1 -> forall k, (length d <= k)%nat -> read true (Upto k) p s1 = Ok (Some d, s1)).
Proof.
  intros H NP. unfold async_write in H. destruct (open_wr_spec g mode p s) as [E|(fd & f & F & -> & Ef & Eo)]; [by rewrite E in H|]. rewrite Eo in H.
  unfold sys_write in H. cbn in H. destruct a as [|n]; [done|]. rewrite lookup_insert in H. cbn in H. rewrite lookup_insert in H.
  assert (exists r w, f = File (Regular []) r w (now s) /\ r = (match files s !! c_str p with Some f0 => readable f0 | None => fst mode end)) as (r & w & -> & Er).
  { destruct (files s !! c_str p) as [[[x|] r0 w0 m0]|] eqn:E0; cbn in Ef; subst f; try (by eexists _, _). by destruct (NP _ eq_refl). }
  cbn in H. injection H as <-. set (k := Z.to_nat _) in *.
  assert (take k d = take (Z.to_nat (Z.min (Z.of_nat n) 2147479552)) d) as Tk.
  { unfold k, max_rw. destruct (Z.le_ge_cases (Z.min (Z.of_nat n) 2147479552) (Z.of_nat (length d))); [do 2 f_equal; lia|]. rewrite !take_ge by lia. done. }
  rewrite drop_nil, app_nil_r in *. cbn [app take] in *.
  split.
  - unfold only, close, with_fds, with_files. cbn. split_and!; try done; [by apply delete_insert|]. intros q Q. rewrite insert_insert. by rewrite lookup_insert_ne by done.
  - exists n, (File (Regular (take k d)) r w (now s)), (take k d). split_and!; try done.
    + cbn. by rewrite lookup_insert.
    + intros Hn Hm Hr Rm j Hj. cbn in Hr. subst r. apply files_read_exact; [|done|done|lia]. eexists _, _. cbn. rewrite Hr, lookup_insert. do 3 f_equal. rewrite Tk, take_ge by lia. done.
Qed.
(** It reports success when the system wrote only part; above 2147479552 bytes that is always so. *)
Theorem async_short_refuted g mode a p d s s1 : async_write g mode a p d s = (true, s1) ->
  (forall f, files s !! c_str p = Some f -> contents f <> Pipe) -> 2147479552 < Z.of_nat (length d) ->
  forall g' a' v s2, read g' a' p s1 = Ok (Some v, s2) -> v <> d.
Proof.
  intros H NP L g' a' v s2 R ->. destruct (async_roundtrip_partial _ _ _ _ _ _ _ H NP) as (_ & n & f & d' & -> & Ef & Ec & _ & _ & -> & _).
  destruct (files_read_sound _ _ _ _ _ _ R) as (_ & _ & _ & d2 & n2 & k & (w & m & Hh) & _ & _ & _ & LL).
  rewrite Ef in Hh. injection Hh as ->. cbn in Ec. injection Ec as ->. rewrite take_length in LL. lia.
Qed.
(** A file it creates has whatever permissions the missing argument yields: it may not be readable. *)
Theorem async_mode_refuted : exists p d s s1 mode, async_write true mode (Upto (length d)) p d s = (true, s1) /\ room s1 /\
  forall g a, exists s2, read g a p s1 = Ok (None, s2).
Proof.
  set (s := Os ∅ ∅ 8 0). destruct (async_write true (false, false) (Upto 3) [97] [1; 2; 3] s) as [b s1] eqn:E.
  assert (b = true) as -> by (assert (fst (async_write true (false, false) (Upto 3) [97] [1; 2; 3] s) = true) as X by (vm_compute; reflexivity); by rewrite E in X).
  exists [97], [1; 2; 3], s, s1, (false, false). split; [done|].
  destruct (async_roundtrip_partial _ _ _ _ _ _ _ E) as ((O1 & O2 & _) & n & f & d' & _ & F & _ & _ & R & _); [done|]. cbn in R.
  split; [unfold room; rewrite O1, O2; cbn; rewrite map_size_empty; lia|].
  intros g a. exists s1. unfold read, open_rd. rewrite F, R. by rewrite andb_false_r.
Qed.
(** A failed write leaves its descriptor open. *)
Theorem async_write_leaks : exists p d s s1, async_write true (true, true) Refuse p d s = (false, s1) /\ fds s = ∅ /\ fds s1 <> ∅.
Proof. exists [97], [1], (Os ∅ ∅ 8 0). eexists. split_and!; [reflexivity|done|]. cbn. apply insert_non_empty. Qed.

(** ** The watcher *)
Definition sees (p : list Z) (x : bool * os) : option Z := last_write_time (fst x) p (snd x).
Lemma polls_spec p t0 l : p <> [] -> forall i, polls (Watcher p t0) l !! i = match l !! i with
  | Some x => Some (match sees p x with Some t => last_seen (take i (map (sees p) l)) t0 <? t | None => false end)
  | None => None end.
Proof.
  intros Hp. revert t0. induction l as [|[g s] l IH]; intros t0 i; [done|]. cbn [polls]. unfold poll. cbn [w_path last_write_time_].
  destruct p as [|x p]; [done|]. destruct i as [|i].
  - cbn [lookup list_lookup]. unfold sees. cbn [fst snd]. by destruct (last_write_time g (x :: p) s).
  - cbn [map take]. unfold sees at 2. cbn [fst snd]. destruct (last_write_time g (x :: p) s) as [t|]; cbn [lookup list_lookup last_seen]; rewrite IH; done.
Qed.
(** poll() is true exactly when the time now seen is later than the one last seen, by the constructor or an earlier poll. *)
Theorem watcher_exact g0 p s0 l i g s : p <> [] -> l !! i = Some (g, s) ->
  polls (watch g0 p s0) l !! i = Some true <->
  exists t, last_write_time g p s = Some t /\ last_seen (sees p (g0, s0) :: take i (map (sees p) l)) 0 < t.
Proof.
  intros Hp Hl. assert (watch g0 p s0 = Watcher p (last_seen [sees p (g0, s0)] 0)) as ->.
  { unfold watch, sees. cbn. destruct p; [done|]. by destruct (last_write_time g0 _ s0). }
  rewrite polls_spec by done. rewrite Hl. unfold sees at 1. cbn [fst snd].
  assert (forall t0, last_seen (sees p (g0, s0) :: take i (map (sees p) l)) t0 = last_seen (take i (map (sees p) l)) (last_seen [sees p (g0, s0)] t0)) as -> by (intros; cbn; by destruct (sees p (g0, s0))).
  destruct (last_write_time g p s) as [t|].
  - split.
    + intros [= H]. apply Z.ltb_lt in H. by exists t.
    + intros (t' & [= <-] & H). by apply Z.ltb_lt in H as ->.
  - split; [done|]. by intros (t' & ? & _).
Qed.
(** A watcher that was given no path never reports anything. *)
Theorem watcher_no_path g0 s0 l i b : polls (watch g0 [] s0) l !! i = Some b -> b = false.
Proof. cbn. revert i. induction l as [|[g s] l IH]; intros [|i]; cbn; [done..|by intros [= <-]|apply IH]. Qed.
(** Two looks at a file that is there: true exactly when its time has advanced by a whole second. *)
Theorem watcher_seconds_partial p s0 s f0 f : p <> [] -> files s0 !! c_str p = Some f0 -> files s !! c_str p = Some f ->
  0 <= mtime f0 < 2 ^ 64 * 1000000000 -> 0 <= mtime f < 2 ^ 64 * 1000000000 ->
  polls (watch true p s0) [(true, s)] = [bool_decide (mtime f0 / 1000000000 < mtime f / 1000000000)].
Proof.
  intros Hp E0 E R0 R. unfold watch. destruct p as [|x p]; [done|]. unfold last_write_time at 1. rewrite E0. cbn [polls poll w_path last_write_time_]. unfold last_write_time. rewrite E. unfold before.
  assert (forall z, 0 <= z < 2 ^ 64 * 1000000000 -> wrap 64 (z / 1000000000) = z / 1000000000) as W.
  { intros z Hz. apply wrap_small. split; [apply Z.div_pos; lia|apply Z.div_lt_upper_bound; lia]. }
  rewrite !W by done. f_equal. case_bool_decide; [by apply Z.ltb_lt|]. apply Z.ltb_ge. lia.
Qed.
(** A change within the second last seen is never reported; nor is one from before 1970 to after. *)
Theorem watcher_subsecond_refuted : exists p s0 s f0 f, files s0 !! c_str p = Some f0 /\ files s !! c_str p = Some f /\
  mtime f0 < mtime f /\ contents f0 <> contents f /\ polls (watch true p s0) [(true, s); (true, s)] = [false; false].
Proof.
  exists [97], (Os {[ [97] := File (Regular [1]) true true 5000000000 ]} ∅ 8 0), (Os {[ [97] := File (Regular [2]) true true 5900000000 ]} ∅ 8 0). eexists _, _.
  split_and!; [reflexivity|reflexivity|done|done|by vm_compute].
Qed.
Theorem watcher_before_1970_refuted : exists p s0 s f0 f, files s0 !! c_str p = Some f0 /\ files s !! c_str p = Some f /\
  mtime f0 + 2000000000 <= mtime f /\ polls (watch true p s0) [(true, s)] = [false].
Proof.
  exists [97], (Os {[ [97] := File (Regular [1]) true true (-5000000000) ]} ∅ 8 0), (Os {[ [97] := File (Regular [2]) true true 5900000000 ]} ∅ 8 0). eexists _, _.
  split_and!; [reflexivity|reflexivity|done|by vm_compute].
Qed.

(** ** Async::wait *)
Theorem wait_partial ms : 0 < ms < 2 ^ 64 -> wait ms = Ok (Some (ms * 1000000)).
Proof.
  intros H. unfold wait, settime. pose proof (Z.mod_pos_bound ms 1000 ltac:(lia)) as M. pose proof (Z.div_pos ms 1000 ltac:(lia) ltac:(lia)) as P. pose proof (Z.div_mod ms 1000 ltac:(lia)) as D.
  revert M P D. generalize (ms mod 1000) (ms / 1000). intros r q M P D.
  rewrite (proj2 (Z.leb_le _ _)) by lia. rewrite (proj2 (Z.ltb_lt _ _)) by lia. rewrite (proj2 (Z.leb_le 0 q)) by lia. cbn [andb mbind res_bind assert_].
  destruct (Z.eqb_spec q 0); destruct (Z.eqb_spec (r * 1000000) 0); cbn [andb]; do 2 f_equal; lia.
Qed.
(** wait(pool, 0) never ends. *)
Theorem wait_zero_refuted : wait 0 = Ok None.
Proof. done. Qed.
Theorem wait_w32_partial ms : 0 <= ms -> ms * 10000 < 2 ^ 63 -> wait_w32 ms = Ok (ms * 1000000).
Proof.
  intros H L. unfold wait_w32. rewrite wrap_small by (unfold is_u; lia). rewrite to_signed_small by (unfold is_i; lia).
  rewrite (proj2 (Z.eqb_neq _ _)) by lia. f_equal. destruct (Z.ltb_spec (- (ms * 10000)) 0); lia.
Qed.
Theorem wait_w32_long_refuted : exists ms, 0 < ms < 2 ^ 64 /\ wait_w32 ms = Ok 0.
Proof. exists (2 ^ 63 / 10000 + 1). split; [lia|by vm_compute]. Qed.

(** ** Windows *)
Theorem w32_roundtrip conv p d s s1 : Z.of_nat (length d) <= 4294967295 -> w32_write conv true None p d s = Ok (true, s1) ->
  w32_read conv true true true p s1 = Ok (Some d, s1) /\ handles s1 = handles s /\ exists q, conv p = Some q /\ forall x, x <> q -> wfiles s1 !! x = wfiles s !! x.
Proof.
  intros L. unfold w32_write, w32_read. destruct (conv p) as [q|]; [|done]. rewrite (proj2 (Z.leb_le _ _)) by done. cbn.
  rewrite wrap_small by (unfold is_u; lia). rewrite Nat2Z.id, take_ge by lia. intros [= <-]. cbn. rewrite lookup_insert. rewrite (proj2 (Z.leb_le _ _)) by done. cbn. rewrite wrap_small by (unfold is_u; lia).
  rewrite Nat2Z.id, take_ge, Nat.sub_diag by lia. cbn. rewrite app_nil_r. split_and!; try done. exists q. split; [done|]. intros x X. by rewrite insert_insert, lookup_insert_ne.
Qed.
(** Finding: a read whose size cannot be found out fails, and leaves a handle open. *)
Theorem w32_read_leak_refuted conv p q d s : conv p = Some q -> wfiles s !! q = Some d -> w32_read conv true false true p s = Ok (None, W32 (wfiles s) (S (handles s))).
Proof. intros E1 E2. unfold w32_read. by rewrite E1, E2. Qed.
(** Success is reported only if everything was written. *)
Theorem w32_write_true conv o st p d s s1 : w32_write conv o st p d s = Ok (true, s1) -> o = true /\ st = None /\ Z.of_nat (length d) <= 4294967295.
Proof.
  unfold w32_write. destruct (conv p); [|done]. destruct o; [|done]. destruct (Z.leb_spec (Z.of_nat (length d)) 4294967295); [|done]. cbn. by destruct st.
Qed.
Lemma sector_spec n : 0 <= n < 2 ^ 63 -> n <= sector n < n + 4096 /\ sector n mod 4096 = 0.
Proof.
  intros H. unfold sector. rewrite wrap_small by (unfold is_u; lia).
  assert (Z.land (n + 4095) (2 ^ 64 - 4096) = (n + 4095) / 4096 * 4096) as ->.
  { change 4096 with (2 ^ 12) at 2 3. rewrite <-Z.shiftl_mul_pow2, <-Z.shiftr_div_pow2 by lia. apply Z.bits_inj'. intros i Hi. rewrite Z.land_spec.
    change (2 ^ 64 - 4096) with (Z.shiftl (Z.ones 52) 12). destruct (Z.lt_ge_cases i 12).
    - rewrite !Z.shiftl_spec_low by lia. apply andb_false_r.
    - rewrite !Z.shiftl_spec by lia. rewrite Z.shiftr_spec by lia. replace (i - 12 + 12) with i by lia. destruct (Z.lt_ge_cases i 64).
      + rewrite Z.ones_spec_low by lia. apply andb_true_r.
      + rewrite Z.ones_spec_high by lia. rewrite andb_false_r. symmetry. apply Z.bits_above_log2; [lia|]. apply Z.log2_lt_pow2; [lia|]. apply (Z.lt_le_trans _ (2 ^ 64)); [lia|apply Z.pow_le_mono_r; lia]. }
  pose proof (Z.div_mod (n + 4095) 4096 ltac:(lia)). pose proof (Z.mod_pos_bound (n + 4095) 4096 ltac:(lia)). split; [lia|]. apply Z.mod_mul. lia.
Qed.
(** Whatever is read is what the file holds; a failed read changes nothing but perhaps the number of open handles. *)
Theorem w32_read_sound conv o z r p s x s1 : w32_read conv o z r p s = Ok (x, s1) ->
  wfiles s1 = wfiles s /\ (forall d, x = Some d -> (exists q, conv p = Some q /\ wfiles s !! q = Some d) /\ handles s1 = handles s /\ o = true /\ z = true /\ r = true).
Proof.
  unfold w32_read. destruct (conv p) as [q|]; [|by intros [= <- <-]]. destruct (wfiles s !! q) as [d|] eqn:E; [|by intros [= <- <-]]. destruct o; [|by intros [= <- <-]].
  destruct z; [|by intros [= <- <-]]. destruct (Z.leb_spec (Z.of_nat (length d)) 4294967295) as [L|]; [|done]. cbn. destruct r; [|by intros [= <- <-]].
  rewrite wrap_small by (unfold is_u; lia). rewrite Nat2Z.id, take_ge, Nat.sub_diag by lia. cbn. rewrite app_nil_r. intros [= <- <-]. split; [done|]. intros d' [= <-]. split; [|done]. by exists q.
Qed.
Theorem w32_async_read_sound conv o z e pe p s x s1 : (forall q d, wfiles s !! q = Some d -> Z.of_nat (length d) < 2 ^ 63) -> w32_async_read conv o z e pe p s = Ok (x, s1) ->
  s1 = s /\ (forall d, x = Some d -> (exists q, conv p = Some q /\ wfiles s !! q = Some d) /\ o = true /\ z = true /\ e = true /\ pe = true).
Proof.
  intros Sz. unfold w32_async_read. destruct (conv p) as [q|]; [|by intros [= <- <-]]. destruct (wfiles s !! q) as [d|] eqn:E; [|by intros [= <- <-]]. destruct (o && z) eqn:Eo; [|by intros [= <- <-]].
  destruct (Z.leb_spec (sector (Z.of_nat (length d))) 4294967295) as [L|]; [|done]. cbn. destruct (e && pe) eqn:Ee; [|by intros [= <- <-]]. apply andb_prop in Eo as [-> ->], Ee as [-> ->].
  pose proof (Sz q d E). destruct (sector_spec (Z.of_nat (length d))) as [S1 _]; [lia|]. rewrite (take_ge d) by lia. rewrite take_app. intros [= <- <-]. split; [done|]. intros d' [= <-]. split; [|done]. by exists q.
Qed.
(** Success is reported only if every step succeeded. *)
Theorem w32_async_write_true conv o e pe po en p d s s1 : w32_async_write conv o e pe po en p d s = Ok (true, s1) -> o = true /\ e = true /\ pe = true /\ po = true /\ en = true.
Proof.
  unfold w32_async_write. destruct (conv p); [|done]. destruct o; [|done]. destruct e; [|done]. destruct (_ <=? 4294967295); [|done]. cbn. destruct pe; [|done]. destruct po; cbn [andb]; [|done]. destruct (0 <=? _); [|done]. by destruct en.
Qed.
(** The asynchronous pair: data is padded to whole sectors, written, and cut back. *)
Theorem w32_async_roundtrip conv p d s s1 : Z.of_nat (length d) < 2 ^ 63 -> w32_async_write conv true true true true true p d s = Ok (true, s1) ->
  w32_async_read conv true true true true p s1 = Ok (Some d, s1) /\ handles s1 = handles s /\ exists q, conv p = Some q /\ forall x, x <> q -> wfiles s1 !! x = wfiles s !! x.
Proof.
  intros S. unfold w32_async_write, w32_async_read. destruct (conv p) as [q|]; [|done].
  destruct (Z.leb_spec (sector (Z.of_nat (length d))) 4294967295) as [L|L]; [|done]. cbn.
  destruct (sector_spec (Z.of_nat (length d))) as [S1 _]; [lia|]. rewrite (wrap_small 32) by (unfold is_u; lia). destruct (Z.lt_ge_cases (Z.of_nat (length d)) (2 ^ 31)) as [Q|Q].
  - rewrite to_signed_small by (unfold is_i; lia). rewrite (proj2 (Z.leb_le 0 _)) by lia. rewrite Nat2Z.id, take_app. intros [= <-]. cbn. rewrite lookup_insert. rewrite (proj2 (Z.leb_le _ _)) by lia. cbn.
    rewrite (take_ge d) by lia. rewrite take_app. split_and!; try done. exists q. split; [done|]. intros x X. by rewrite !insert_insert, lookup_insert_ne.
  - unfold to_signed. rewrite (wrap_small 32) by (unfold is_u; lia). rewrite (proj2 (Z.ltb_ge _ _)) by lia. rewrite (proj2 (Z.leb_gt 0 _)) by lia. done.
Qed.
(** A read that finishes at once is taken for a failure. *)
Theorem w32_async_immediate_refuted conv p s : (forall d q, conv p = Some q -> wfiles s !! q = Some d -> Z.of_nat (length d) < 2 ^ 31) ->
  w32_async_read conv true true true false p s = Ok (None, s).
Proof.
  intros L. unfold w32_async_read. destruct (conv p) as [q|]; [|done]. destruct (wfiles s !! q) as [d|] eqn:E; [|done]. pose proof (L d q eq_refl E).
  destruct (sector_spec (Z.of_nat (length d))) as [S1 _]; [lia|]. rewrite (proj2 (Z.leb_le _ _)) by lia. done.
Qed.

(** ** The hypotheses are met *)
Definition disk : os := Os {[ [97; 98] := File (Regular [5; 6; 7]) true true 1000000000 ]} ∅ 3 7000000000.
Example files_premises : has disk [97; 98] [5; 6; 7] /\ room disk /\ read true (Upto 100) [97; 98] disk = Ok (Some [5; 6; 7], disk).
Proof.
  assert (has disk [97; 98] [5; 6; 7]) as H by (by eexists _, _). assert (room disk) as R by (unfold room; cbn; rewrite map_size_empty; lia).
  split_and!; [done|done|]. apply files_read_exact; cbn; [done|done|lia|lia].
Qed.
Example async_premises : exists s1, async_write true (true, true) (Upto 2) [97; 98] [8; 9] disk = (true, s1) /\ read true (Upto 2) [97; 98] s1 = Ok (Some [8; 9], s1).
Proof.
  destruct (async_write true (true, true) (Upto 2) [97; 98] [8; 9] disk) as [b s1] eqn:E. exists s1.
  assert (b = true) as -> by (assert (fst (async_write true (true, true) (Upto 2) [97; 98] [8; 9] disk) = true) as X by (vm_compute; reflexivity); by rewrite E in X).
  split; [done|]. destruct (async_roundtrip_partial _ _ _ _ _ _ _ E) as ((O1 & O2 & _) & n & f & d' & [= <-] & F & _ & _ & R & _ & K); [by intros f [= <-]|].
  apply K; cbn; try lia; [by rewrite R|]. unfold room. rewrite O1, O2. cbn. rewrite map_size_empty. lia.
Qed.
Example watcher_premises : polls (watch true [97; 98] disk) [(true, disk); (false, disk); (true, Os {[ [97; 98] := File Pipe true true 2000000000 ]} ∅ 3 0); (true, disk)] = [false; false; true; false].
Proof. by vm_compute. Qed.
Example w32_premises : exists s1, w32_async_write (fun p => Some p) true true true true true [97] [1; 2] (W32 ∅ 0) = Ok (true, s1) /\ wfiles s1 !! [97] = Some [1; 2].
Proof. eexists. split; [reflexivity|]. cbn. by rewrite lookup_insert. Qed.

Print Assumptions files_read_exact.
Print Assumptions files_read_sound.
Print Assumptions files_read_fails.
Print Assumptions files_read_dies.
Print Assumptions files_read_short_refuted.
Print Assumptions files_write_refuted.
Print Assumptions files_write_exhausts.
Print Assumptions async_roundtrip_partial.
Print Assumptions async_short_refuted.
Print Assumptions async_mode_refuted.
Print Assumptions async_write_leaks.
Print Assumptions watcher_exact.
Print Assumptions watcher_seconds_partial.
Print Assumptions watcher_subsecond_refuted.
Print Assumptions watcher_before_1970_refuted.
Print Assumptions wait_partial.
Print Assumptions wait_zero_refuted.
Print Assumptions wait_w32_partial.
Print Assumptions wait_w32_long_refuted.
Print Assumptions w32_roundtrip.
Print Assumptions w32_read_leak_refuted.
Print Assumptions w32_write_true.
Print Assumptions w32_async_roundtrip.
Print Assumptions w32_async_immediate_refuted.
Close Scope Z_scope.
Print Assumptions watcher_no_path.
Print Assumptions w32_read_sound.
Print Assumptions w32_async_read_sound.
Print Assumptions w32_async_write_true.
