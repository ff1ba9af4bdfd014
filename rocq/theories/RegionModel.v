(** rpp/impl/alloc.cpp: the per-thread region allocator.

    All of its variables are thread_local, so one thread's state is the whole
    state.  A pointer is a pair of a malloc block and a byte offset in it;
    block 0 is the static first chunk, every successful malloc gets a new
    number.  What malloc decides is an input of the operation: [refuse] says
    that it returns null if called.  malloc never grants 2^63 bytes or more
    (PTRDIFF_MAX, as glibc documents). *)
From Verif Require Import Base Word.
Open Scope Z_scope.

(** alloc.cpp:13-18; [cblock] is the address, [up] is the rest of the list *)
Record chunk := mk_chunk { cblock : nat; csize : Z; cused : Z }.
Definition SIZEOF_CHUNK : Z := 24.
(** alloc.cpp:20-21 *)
Definition FIRST_CHUNK_SIZE : Z := 1024.
Definition MAX_REGION_DEPTH : nat := 128.

(** alloc.cpp:29-33, head of [chunks] is the current chunk; [mallocs] counts
    the blocks obtained so far and [freed] lists those given back. *)
Record region_state := mk_region {
  current_region : nat;
  region_offsets : list Z;
  region_brands : list Z;
  chunks : list chunk;
  mallocs : nat;
  freed : list nat
}.
Definition region_init : region_state :=
  mk_region 0 (replicate MAX_REGION_DEPTH 0) (replicate MAX_REGION_DEPTH 0)
    [mk_chunk 0 (FIRST_CHUNK_SIZE - SIZEOF_CHUNK) 0] 0 [].

(** alloc.cpp:101-108 through alloc1.h:91-98: null makes the assert fail *)
Definition regions_alloc (st : region_state) (size : Z) (refuse : bool) : res (region_state * nat) :=
  if refuse || (2 ^ 63 <=? size) then Die
  else Ok (mk_region (current_region st) (region_offsets st) (region_brands st) (chunks st)
             (S (mallocs st)) (freed st), S (mallocs st)).
(** alloc.cpp:110-116; the first chunk is not malloc'ed *)
Definition regions_free (st : region_state) (block : nat) : res region_state :=
  if (block =? 0)%nat then UB
  else Ok (mk_region (current_region st) (region_offsets st) (region_brands st) (chunks st)
             (mallocs st) (freed st ++ [block])).
Definition set_chunks (st : region_state) (cs : list chunk) : region_state :=
  mk_region (current_region st) (region_offsets st) (region_brands st) cs (mallocs st) (freed st).

(** alloc.cpp:35-42 *)
Definition new_chunk (st : region_state) (request : Z) (refuse : bool) : res region_state :=
  match chunks st with
  | [] => UB
  | c :: _ =>
      let size := Z.max (wrap 64 (request + SIZEOF_CHUNK)) (wrap 64 (2 * wrap 64 (csize c + SIZEOF_CHUNK))) in
      '(st, block) ← regions_alloc st size refuse;
      Ok (set_chunks st (mk_chunk block (wrap 64 (size - SIZEOF_CHUNK)) 0 :: chunks st))
  end.

(** array access, region_offsets[i] and region_brands[i] *)
Definition at_ (l : list Z) (i : nat) : res Z := match l !! i with Some x => Ok x | None => UB end.
Definition put_at (l : list Z) (i : nat) (x : Z) : res (list Z) :=
  match l !! i with Some _ => Ok (<[i := x]> l) | None => UB end.

(** alloc.cpp:44-48 *)
Definition assert_brand (st : region_state) (brand : Z) : res unit :=
  b ← at_ (region_brands st) (current_region st);
  assert_ (b =? brand).

(** alloc.cpp:50-59; the answer is the block and the offset in it *)
Definition region_alloc (st : region_state) (brand size : Z) (refuse : bool) : res (region_state * (nat * Z)) :=
  _ ← assert_brand st brand;
  match chunks st with
  | [] => UB
  | c :: _ =>
      st ← (if wrap 64 (csize c - cused c) <? size then new_chunk st size refuse else Ok st);
      match chunks st with
      | [] => UB
      | c :: cs =>
          let ret := (cblock c, SIZEOF_CHUNK + cused c) in
          off ← at_ (region_offsets st) (current_region st);
          offs ← put_at (region_offsets st) (current_region st) (wrap 64 (off + size));
          Ok (mk_region (current_region st) offs (region_brands st)
                (mk_chunk (cblock c) (csize c) (wrap 64 (cused c + size)) :: cs) (mallocs st) (freed st), ret)
      end
  end.

(** alloc.cpp:61-63 *)
Definition region_free (st : region_state) (brand : Z) : res region_state :=
  _ ← assert_brand st brand; Ok st.

(** alloc.cpp:65-70 *)
Definition region_begin (st : region_state) (brand : Z) : res region_state :=
  let cur := S (current_region st) in
  _ ← assert_ (cur <? MAX_REGION_DEPTH)%nat;
  off ← at_ (region_offsets st) (cur - 1);
  offs ← put_at (region_offsets st) cur off;
  brands ← put_at (region_brands st) cur brand;
  Ok (mk_region cur offs brands (chunks st) (mallocs st) (freed st)).

(** alloc.cpp:81-83 and 87-89: drop the current chunk *)
Definition pop_chunk (st : region_state) : res region_state :=
  match chunks st with
  | [] => UB
  | c :: cs => regions_free (set_chunks st cs) (cblock c)
  end.
(** alloc.cpp:79-84; [up] of the last chunk is null, so going past it is UB.
    There are at most as many rounds as chunks. *)
Fixpoint free_chunks (fuel : nat) (st : region_state) (free_size : Z) : res (region_state * Z) :=
  match chunks st with
  | [] => UB
  | c :: _ =>
      if cused c <? free_size then
        match fuel with
        | O => Diverge
        | S fuel => st ← pop_chunk st; free_chunks fuel st (wrap 64 (free_size - cused c))
        end
      else Ok (st, free_size)
  end.
(** alloc.cpp:72-91 *)
Definition region_end (st : region_state) (brand : Z) : res region_state :=
  _ ← assert_ (0 <? current_region st)%nat;
  _ ← assert_brand st brand;
  end_offset ← at_ (region_offsets st) (current_region st);
  let cur := (current_region st - 1)%nat in
  start_offset ← at_ (region_offsets st) cur;
  let st := mk_region cur (region_offsets st) (region_brands st) (chunks st) (mallocs st) (freed st) in
  '(st, free_size) ← free_chunks (length (chunks st)) st (wrap 64 (end_offset - start_offset));
  match chunks st with
  | [] => UB
  | c :: cs =>
      let c' := mk_chunk (cblock c) (csize c) (wrap 64 (cused c - free_size)) in
      let st := set_chunks st (c' :: cs) in
      if (cused c' =? 0) && negb (bool_decide (cs = [])) then pop_chunk st else Ok st
  end.

(** alloc.cpp:93-99 *)
Definition region_depth (st : region_state) : nat := current_region st.
Definition region_size (st : region_state) : res Z := at_ (region_offsets st) (current_region st).

(** What a thread can do; [alloc0.h:108-113] makes begin and end the entry and
    the exit of a block, [Mregion] (alloc0.h:94-103) calls alloc and free. *)
Inductive region_op :=
| RBegin (brand : Z)
| REnd (brand : Z)
| RAlloc (brand size : Z) (refuse : bool)
| RFree (brand : Z).
Definition region_step (st : region_state) (o : region_op) : res (region_state * option (nat * Z)) :=
  match o with
  | RBegin b => st ← region_begin st b; Ok (st, None)
  | REnd b => st ← region_end st b; Ok (st, None)
  | RAlloc b n refuse => '(st, p) ← region_alloc st b n refuse; Ok (st, Some p)
  | RFree b => st ← region_free st b; Ok (st, None)
  end.
Close Scope Z_scope.
