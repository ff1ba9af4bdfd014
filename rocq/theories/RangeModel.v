(** rpp/range_allocator.h, Range_Allocator<A, Buckets, Bias>.

    Block headers live in a finite map from addresses (numbers); the four link
    fields are addresses.  A read, write or destroy through an address that
    holds no Block is undefined.  Simplifications: the Free_List of headers
    (221) answers a new number for each [make] (FreeListProps proves that it
    never answers a block in use); the mutex is left out, since each operation
    holds it from start to end; [next_free], [prev_free] and [free], which the
    constructor (56-59) leaves indeterminate, start as null and false (they are
    written by insert_free_block before they are read). *)
From stdpp Require Import gmap.
From Verif Require Import Word MathModel.
Open Scope Z_scope.

Section model.
  Context (Buckets : nat) (Bias : Z).

  (** 46-70 *)
  Record block := mk_block {
    b_offset : Z; b_size : Z; b_start : Z;
    b_next : option nat; b_prev : option nat;
    b_nfree : option nat; b_pfree : option nat; b_free : bool
  }.
  Definition set_offset v b := mk_block v (b_size b) (b_start b) (b_next b) (b_prev b) (b_nfree b) (b_pfree b) (b_free b).
  Definition set_size v b := mk_block (b_offset b) v (b_start b) (b_next b) (b_prev b) (b_nfree b) (b_pfree b) (b_free b).
  Definition set_next v b := mk_block (b_offset b) (b_size b) (b_start b) v (b_prev b) (b_nfree b) (b_pfree b) (b_free b).
  Definition set_prev v b := mk_block (b_offset b) (b_size b) (b_start b) (b_next b) v (b_nfree b) (b_pfree b) (b_free b).
  Definition set_nfree v b := mk_block (b_offset b) (b_size b) (b_start b) (b_next b) (b_prev b) v (b_pfree b) (b_free b).
  Definition set_pfree v b := mk_block (b_offset b) (b_size b) (b_start b) (b_next b) (b_prev b) (b_nfree b) v (b_free b).
  Definition set_free v b := mk_block (b_offset b) (b_size b) (b_start b) (b_next b) (b_prev b) (b_nfree b) (b_pfree b) v.
  (** 48-53 *)
  Definition b_padding (b : block) : Z := wrap 64 (b_offset b - b_start b).
  Definition b_length (b : block) : Z := wrap 64 (b_size b - b_padding b).

  (** 188-200 *)
  Record stats := mk_stats {
    free_size : Z; allocated_size : Z; free_blocks : Z; allocated_blocks : Z;
    bucket_sizes : list Z; high_water : Z;
    total_frees : Z; total_allocs : Z; total_free_size : Z; total_alloc_size : Z; total_capacity : Z
  }.

  (** 220-223 *)
  Record ra := mk_ra {
    blocks : gmap nat block;
    buckets : list (option nat);
    st_stats : stats;
    made : nat   (* headers made so far *)
  }.
  Definition load (st : ra) (p : nat) : res block :=
    match blocks st !! p with Some b => Ok b | None => UB end.
  Definition store (st : ra) (p : nat) (f : block -> block) : res ra :=
    match blocks st !! p with
    | Some _ => Ok (mk_ra (alter f p (blocks st)) (buckets st) (st_stats st) (made st))
    | None => UB
    end.
  Definition destroy (st : ra) (p : nat) : res ra :=
    match blocks st !! p with
    | Some _ => Ok (mk_ra (delete p (blocks st)) (buckets st) (st_stats st) (made st))
    | None => UB
    end.
  Definition make (st : ra) (b : block) : ra * nat :=
    (mk_ra (<[made st := b]> (blocks st)) (buckets st) (st_stats st) (S (made st)), made st).
  Definition bucket (st : ra) (i : Z) : res (option nat) :=
    match buckets st !! Z.to_nat i with Some h => Ok h | None => UB end.
  Definition set_bucket (st : ra) (i : Z) (h : option nat) : ra :=
    mk_ra (blocks st) (<[Z.to_nat i := h]> (buckets st)) (st_stats st) (made st).
  Definition with_stats (st : ra) (f : stats -> stats) : ra :=
    mk_ra (blocks st) (buckets st) (f (st_stats st)) (made st).
  Definition add_bucket_size (i d : Z) (s : stats) : stats :=
    mk_stats (free_size s) (allocated_size s) (free_blocks s) (allocated_blocks s)
      (alter (fun n => wrap 64 (n + d)) (Z.to_nat i) (bucket_sizes s)) (high_water s)
      (total_frees s) (total_allocs s) (total_free_size s) (total_alloc_size s) (total_capacity s).
  Definition add_free_blocks (d : Z) (s : stats) : stats :=
    mk_stats (free_size s) (allocated_size s) (wrap 64 (free_blocks s + d)) (allocated_blocks s)
      (bucket_sizes s) (high_water s)
      (total_frees s) (total_allocs s) (total_free_size s) (total_alloc_size s) (total_capacity s).

  (** 225-229; u8 *)
  Definition size_to_idx (size : Z) : Z :=
    let idx := log2 64 size in
    let idx := if Bias <=? idx then idx - Bias else 0 in
    wrap 8 (Z.min idx (wrap 64 (Z.of_nat Buckets - 1))).

  (** 231-239 *)
  Definition insert_free_block (st : ra) (p : nat) : res ra :=
    st ← store st p (set_free true);
    b ← load st p;
    let idx := size_to_idx (b_size b) in
    st ← store st p (set_pfree None);
    h ← bucket st idx;
    st ← store st p (set_nfree h);
    h ← bucket st idx;
    st ← match h with Some q => store st q (set_pfree (Some p)) | None => Ok st end;
    Ok (with_stats (set_bucket st idx (Some p)) (add_bucket_size idx 1)).

  (** 241-250 *)
  Definition remove_free_block (st : ra) (p : nat) : res ra :=
    st ← store st p (set_free false);
    b ← load st p;
    let idx := size_to_idx (b_size b) in
    st ← match b_pfree b with Some q => store st q (set_nfree (b_nfree b)) | None => Ok st end;
    b ← load st p;
    st ← match b_nfree b with Some q => store st q (set_pfree (b_pfree b)) | None => Ok st end;
    b ← load st p;
    h ← bucket st idx;
    let st := if bool_decide (h = Some p) then set_bucket st idx (b_nfree b) else st in
    st ← store st p (set_nfree None);
    st ← store st p (set_pfree None);
    Ok (with_stats st (add_bucket_size idx (-1))).

  (** 12-20 with the members' initial values *)
  Definition stats0 : stats := mk_stats 0 0 0 0 (replicate Buckets 0) 0 0 0 0 0 0.
  Definition ra_empty : ra := mk_ra ∅ (replicate Buckets None) stats0 0.
  Definition ra_new (heap_size : Z) : res ra :=
    _ ← assert_ (negb (heap_size =? 0));
    let '(st, p) := make ra_empty (mk_block 0 heap_size 0 None None None None false) in
    st ← insert_free_block st p;
    Ok (with_stats st (fun s =>
      mk_stats heap_size (allocated_size s) 1 (allocated_blocks s) (bucket_sizes s) (high_water s)
        (total_frees s) (total_allocs s) (total_free_size s) (total_alloc_size s) heap_size)).

  (** 80-83: the first list at or above [idx] that is not empty; [None] when
      [idx] reaches Buckets.  The fuel counts the lists left. *)
  Fixpoint first_bucket (fuel : nat) (st : ra) (idx : Z) : res (option Z) :=
    match fuel with
    | O => if idx <? Z.of_nat Buckets then Diverge else Ok None
    | S fuel =>
        if idx <? Z.of_nat Buckets then
          h ← bucket st idx;
          match h with
          | Some _ => Ok (Some idx)
          | None => first_bucket fuel st (wrap 8 (idx + 1))
          end
        else Ok None
    end.
  (** 97-99: step to the next list while there is no block *)
  Fixpoint next_bucket (fuel : nat) (st : ra) (h : option nat) (idx : Z) : res (option nat * Z) :=
    match fuel with
    | O => match h with
           | Some _ => Ok (h, idx)
           | None => if idx <? Z.of_nat Buckets - 1 then Diverge else Ok (h, idx)
           end
    | S fuel =>
        match h with
        | Some _ => Ok (h, idx)
        | None =>
            if idx <? Z.of_nat Buckets - 1 then
              let idx := wrap 8 (idx + 1) in
              h ← bucket st idx;
              next_bucket fuel st h idx
            else Ok (h, idx)
        end
    end.
  (** 92: the padding at a block *)
  Definition padding_at (b : block) (alignment : Z) : res Z :=
    a ← align 64 (b_start b) alignment;
    Ok (wrap 64 (a - b_start b)).
  (** 91-100: the block that fits, with its padding *)
  Fixpoint search (fuel : nat) (st : ra) (h : option nat) (idx size alignment : Z) : res (option (nat * Z)) :=
    match h with
    | None => Ok None
    | Some p =>
        match fuel with
        | O => Diverge
        | S fuel =>
            b ← load st p;
            padding ← padding_at b alignment;
            if wrap 64 (size + padding) <=? b_size b then Ok (Some (p, padding))
            else
              '(h, idx) ← next_bucket Buckets st (b_nfree b) idx;
              search fuel st h idx size alignment
        end
    end.
  (** 80-104 *)
  Definition find_block (st : ra) (size alignment : Z) : res (option (nat * Z)) :=
    r ← first_bucket Buckets st (size_to_idx size);
    match r with
    | None => Ok None
    | Some idx =>
        h ← bucket st idx;
        search (base.size (blocks st)) st h idx size alignment
    end.

  (** 111-125 *)
  Definition split (st : ra) (p : nat) (size padding : Z) : res ra :=
    b ← load st p;
    if wrap 64 (size + padding) <? b_size b then
      let '(st, q) := make st (mk_block 0 (wrap 64 (b_size b - size - padding)) (wrap 64 (b_start b + size + padding))
                                 (b_next b) (Some p) None None false) in
      st ← store st p (set_size (wrap 64 (size + padding)));
      st ← match b_next b with Some n => store st n (set_prev (Some q)) | None => Ok st end;
      st ← store st p (set_next (Some q));
      st ← insert_free_block st q;
      Ok (with_stats st (add_free_blocks 1))
    else Ok st.

  (** 127-134 *)
  Definition count_alloc (n : Z) (s : stats) : stats :=
    let al := wrap 64 (allocated_size s + n) in
    mk_stats (wrap 64 (free_size s - n)) al (wrap 64 (free_blocks s - 1)) (wrap 64 (allocated_blocks s + 1))
      (bucket_sizes s) (Z.max (high_water s) al) (total_frees s) (wrap 64 (total_allocs s + 1))
      (total_free_size s) (wrap 64 (total_alloc_size s + n)) (total_capacity s).
  (** 73-137 *)
  Definition allocate (st : ra) (size alignment : Z) : res (ra * option nat) :=
    _ ← assert_ (negb (size =? 0) && negb (alignment =? 0));
    r ← find_block st size alignment;
    match r with
    | None => Ok (st, None)
    | Some (p, padding) =>
        st ← remove_free_block st p;
        b ← load st p;
        st ← store st p (set_offset (wrap 64 (b_start b + padding)));
        st ← split st p size padding;
        Ok (with_stats st (count_alloc (wrap 64 (size + padding))), Some p)
    end.

  (** 148-161: the block that now holds the space *)
  Definition merge_prev (st : ra) (p : nat) (prev next : option nat) : res (ra * nat) :=
    match prev with
    | None => Ok (st, p)
    | Some v =>
        pb ← load st v;
        if b_free pb then
          st ← remove_free_block st v;
          b ← load st p;
          st ← store st v (fun pb => set_size (wrap 64 (b_size pb + b_size b)) pb);
          st ← store st v (set_next next);
          st ← match next with Some n => store st n (set_prev (Some v)) | None => Ok st end;
          st ← destroy st p;
          Ok (with_stats st (add_free_blocks (-1)), v)
        else Ok (st, p)
    end.
  (** 163-175 *)
  Definition merge_next (st : ra) (p : nat) (next : option nat) : res ra :=
    match next with
    | None => Ok st
    | Some n =>
        nb ← load st n;
        if b_free nb then
          st ← remove_free_block st n;
          nb ← load st n;
          st ← store st p (fun b => set_size (wrap 64 (b_size b + b_size nb)) b);
          st ← store st p (set_next (b_next nb));
          st ← match b_next nb with Some m => store st m (set_prev (Some p)) | None => Ok st end;
          destroy (with_stats st (add_free_blocks (-1))) n
        else Ok st
    end.
  (** 179-185 *)
  Definition count_free (n : Z) (s : stats) : stats :=
    mk_stats (wrap 64 (free_size s + n)) (wrap 64 (allocated_size s - n)) (wrap 64 (free_blocks s + 1))
      (wrap 64 (allocated_blocks s - 1)) (bucket_sizes s) (high_water s) (wrap 64 (total_frees s + 1))
      (total_allocs s) (wrap 64 (total_free_size s + n)) (total_alloc_size s) (total_capacity s).
  (** 139-186 *)
  Definition free (st : ra) (p : nat) : res ra :=
    b ← load st p;
    '(st, q) ← merge_prev st p (b_prev b) (b_next b);
    st ← merge_next st q (b_next b);
    st ← insert_free_block st q;
    Ok (with_stats st (count_free (b_size b))).

  (** 202-212 *)
  Definition assert_clear (s : stats) : res unit :=
    _ ← assert_ (total_allocs s =? total_frees s);
    _ ← assert_ (total_alloc_size s =? total_free_size s);
    _ ← assert_ ((free_blocks s =? 1) || ((free_blocks s =? 0) && (total_capacity s =? 0)));
    _ ← assert_ (free_size s =? total_capacity s);
    _ ← assert_ (allocated_blocks s =? 0);
    _ ← assert_ (allocated_size s =? 0);
    assert_ (foldl (fun a n => wrap 64 (a + n)) 0 (bucket_sizes s) =? free_blocks s).

  (** 254-259: one free list; the fuel is the number of headers *)
  Fixpoint reset_list (fuel : nat) (st : ra) (h : option nat) : res ra :=
    match h with
    | None => Ok st
    | Some p =>
        match fuel with
        | O => Diverge
        | S fuel => b ← load st p; st ← destroy st p; reset_list fuel st (b_nfree b)
        end
    end.
  Fixpoint reset_from (n : nat) (st : ra) (i : Z) : res ra :=
    match n with
    | O => Ok st
    | S n =>
        h ← bucket st i;
        st ← reset_list (base.size (blocks st)) st h;
        reset_from n (set_bucket st i None) (i + 1)
    end.
  (** 252-263, run by the destructor (21-24) and the move assignment (32-44);
      the headers still in the map afterwards are never given back *)
  Definition reset (st : ra) : res ra := reset_from Buckets st 0.
  (** 32-44: what [*this] and [src] hold after a move from another allocator.
      The headers stay where they are. *)
  Definition ra_move (dst src : ra) : res (ra * ra) :=
    _ ← reset dst;
    Ok (src, mk_ra ∅ (replicate Buckets None) stats0 (made src)).
End model.
Close Scope Z_scope.
