(** What a caller of the range allocator can observe. *)
From stdpp Require Import gmap.
From Verif Require Import Word RangeModel.
Open Scope Z_scope.

(** A live allocation: its handle, what the handle reports, and what was asked
    for. *)
Record range := mk_range {
  r_id : nat; r_offset : Z; r_length : Z; r_padding : Z; r_size : Z; r_align : Z
}.
(** Totals over the whole history, as mathematical integers. *)
Record totals := mk_totals { n_allocs : Z; n_frees : Z; bytes_alloc : Z; bytes_free : Z; peak : Z }.

(** Requests that do not overflow; 64-bit arguments. *)
Definition request (size alignment : Z) : Prop := 0 < size /\ 0 < alignment /\ size + alignment <= 2 ^ 64.

Definition occupied (r : range) : Z := r_length r + r_padding r.
Definition sumZ (l : list Z) : Z := foldr Z.add 0 l.
Definition in_use (live : list range) : Z := sumZ (map occupied live).

(** States reached by legal histories from a heap of [cap] bytes, with the
    ranges that are live and the totals. *)
Inductive reach (Buckets : nat) (Bias cap : Z) : ra -> list range -> totals -> Prop :=
| reach_new st : ra_new Buckets Bias cap = Ok st -> reach Buckets Bias cap st [] (mk_totals 0 0 0 0 0)
| reach_refused st live t size alignment st' :
    reach Buckets Bias cap st live t -> request size alignment ->
    allocate Buckets Bias st size alignment = Ok (st', None) -> reach Buckets Bias cap st' live t
| reach_alloc st live t size alignment st' p b r :
    reach Buckets Bias cap st live t -> request size alignment ->
    allocate Buckets Bias st size alignment = Ok (st', Some p) -> blocks st' !! p = Some b ->
    r = mk_range p (b_offset b) (b_length b) (b_padding b) size alignment ->
    reach Buckets Bias cap st' (r :: live)
      (mk_totals (n_allocs t + 1) (n_frees t) (bytes_alloc t + occupied r) (bytes_free t)
         (Z.max (peak t) (in_use (r :: live))))
| reach_free st live1 r live2 t st' :
    reach Buckets Bias cap st (live1 ++ r :: live2) t ->
    free Buckets Bias st (r_id r) = Ok st' ->
    reach Buckets Bias cap st' (live1 ++ live2)
      (mk_totals (n_allocs t) (n_frees t + 1) (bytes_alloc t) (bytes_free t + occupied r) (peak t)).

(** Byte [x] belongs to a live range or to the padding before it. *)
Definition covered (live : list range) (x : Z) : Prop :=
  exists r, r ∈ live /\ r_offset r - r_padding r <= x < r_offset r + r_length r.
Definition all_free (live : list range) (s n : Z) : Prop := forall x, s <= x < s + n -> ~ covered live x.
(** A maximal run of free bytes. *)
Definition gap (cap : Z) (live : list range) (s n : Z) : Prop :=
  0 <= s /\ 0 < n /\ s + n <= cap /\ all_free live s n /\
  (s = 0 \/ covered live (s - 1)) /\ (s + n = cap \/ covered live (s + n)).
(** There is room for [size] bytes at some multiple of [alignment]. *)
Definition has_room (cap : Z) (live : list range) (size alignment : Z) : Prop :=
  exists o, 0 <= o /\ (alignment | o) /\ o + size <= cap /\ all_free live o size.

(** Two live ranges, paddings included, do not meet. *)
Definition apart (r1 r2 : range) : Prop :=
  r_offset r1 + r_length r1 <= r_offset r2 - r_padding r2 \/
  r_offset r2 + r_length r2 <= r_offset r1 - r_padding r1.
Close Scope Z_scope.
