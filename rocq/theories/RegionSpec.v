(** What regions should be: a stack of blocks, each with its own allocations. *)
From Verif Require Import Base Word RegionModel.
Open Scope Z_scope.

(** An allocation: [asize] bytes of block [ablock] from offset [aoff]. *)
Record allocation := mk_alloc { ablock : nat; aoff : Z; asize : Z }.
(** An open region: its brand and what was allocated in it, newest first. *)
Record open_region := mk_open { obrand : Z; oallocs : list allocation }.

(** Bookkeeping by the user of the allocator: innermost region first. *)
Definition note (rs : list open_region) (o : region_op) (p : option (nat * Z)) : list open_region :=
  match o, p, rs with
  | RBegin b, _, _ => mk_open b [] :: rs
  | REnd _, _, _ :: rs' => rs'
  | RAlloc _ n _, Some (blk, off), r :: rs' => mk_open (obrand r) (mk_alloc blk off n :: oallocs r) :: rs'
  | _, _, _ => rs
  end.
(** A thread's whole history; the outermost region has brand 0 and never ends. *)
Fixpoint history (st : region_state) (rs : list open_region) (os : list region_op)
  : res (region_state * list open_region) :=
  match os with
  | [] => Ok (st, rs)
  | o :: os' => '(st', p) ← region_step st o; history st' (note rs o p) os'
  end.
Definition from_start (os : list region_op) : res (region_state * list open_region) :=
  history region_init [mk_open 0 []] os.

(** The allocations a program may still use. *)
Definition live (rs : list open_region) : list allocation := List.concat (map oallocs rs).
Definition disjoint (a b : allocation) : Prop :=
  ablock a <> ablock b \/ aoff a + asize a <= aoff b \/ aoff b + asize b <= aoff a.
(** The bytes of block [blk] that are the allocator's own and not its header. *)
Definition owned (st : region_state) (a : allocation) : Prop :=
  exists c, c ∈ chunks st /\ cblock c = ablock a /\
    SIZEOF_CHUNK <= aoff a /\ aoff a + asize a <= SIZEOF_CHUNK + csize c.
Definition total (l : list allocation) : Z := foldr (fun a s => asize a + s) 0 l.

(** A request that does not wrap around when the chunk header is added. *)
Definition sane (o : region_op) : Prop :=
  match o with RAlloc _ n _ => 0 <= n < 2 ^ 64 - SIZEOF_CHUNK | _ => True end.

(** Work that opens and closes regions evenly. *)
Inductive balanced : list region_op -> Prop :=
| balanced_nil : balanced []
| balanced_alloc b n r os : balanced os -> balanced (RAlloc b n r :: os)
| balanced_free b os : balanced os -> balanced (RFree b :: os)
| balanced_region b b' os os' : balanced os -> balanced os' -> balanced (RBegin b :: os ++ REnd b' :: os').
Close Scope Z_scope.

(** What the caller must respect: nesting below the limit, and every use names
    the innermost open region. *)
Definition permitted (rs : list open_region) (o : region_op) : Prop :=
  match o with
  | RBegin _ => length rs < MAX_REGION_DEPTH
  | REnd b => 1 < length rs /\ (obrand <$> head rs) = Some b
  | RAlloc b _ _ | RFree b => (obrand <$> head rs) = Some b
  end.
