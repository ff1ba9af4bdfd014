(** Object storage: an array of slots, each raw, holding a live object, or
    holding the husk of a moved-from object.

    This is the memory model under the container models.  The C++ code
    allocates raw storage with [A::alloc], constructs with placement new,
    destroys with an explicit destructor call and releases with [A::free]
    (for instance rpp/vec.h:120-135).  A slot-level operation applied to a
    slot in the wrong state is [UB]:
    - reading, assigning or moving from a slot with no live object;
    - constructing over an object that was not destroyed;
    - destroying a slot with no object;
    - releasing storage that still holds a live object (a leak).
    A husk (moved-from object) owns nothing: it may be destroyed, or its
    storage may be released without destroying it, which several rpp
    containers do (rpp/vec.h:127-132, rpp/queue.h:120-130). *)
From Verif Require Export Base.

Inductive slot (T : Type) : Type :=
| Raw
| Live (v : T)
| Husk.
Arguments Raw {T}.
Arguments Live {T} v.
Arguments Husk {T}.

(** A block of element storage. *)
Notation mem T := (list (slot T)).

Section slots.
  Context {T : Type}.
  Implicit Types (m : mem T) (i : nat) (v : T).

  (** [A::alloc(n * sizeof(T))] *)
  Definition m_alloc (n : nat) : mem T := replicate n Raw.

  Definition m_read m i : res T :=
    match m !! i with Some (Live v) => Ok v | _ => UB end.

  (** [new(&data[i]) T{v}] *)
  Definition m_construct m i v : res (mem T) :=
    match m !! i with Some Raw => Ok (<[i:=Live v]> m) | _ => UB end.

  (** [data[i].~T()]; the list is what the destructor call released. *)
  Definition m_destroy m i : res (mem T * list T) :=
    match m !! i with
    | Some (Live v) => Ok (<[i:=Raw]> m, [v])
    | Some Husk => Ok (<[i:=Raw]> m, [])
    | _ => UB
    end.

  (** [T tmp{move(data[i])}] *)
  Definition m_take m i : res (mem T * T) :=
    match m !! i with
    | Some (Live v) => Ok (<[i:=Husk]> m, v)
    | _ => UB
    end.

  (** [data[i] = v]; releases what was there. *)
  Definition m_assign m i v : res (mem T * list T) :=
    match m !! i with
    | Some (Live w) => Ok (<[i:=Live v]> m, [w])
    | Some Husk => Ok (<[i:=Live v]> m, [])
    | _ => UB
    end.

  Definition is_live (s : slot T) : bool :=
    match s with Live _ => true | _ => false end.

  (** [A::free(data)] *)
  Definition m_free m : res unit :=
    if existsb is_live m then UB else Ok tt.

  (** ** Facts *)

  Lemma m_alloc_length n : length (m_alloc n) = n.
  Proof. apply replicate_length. Qed.

  Lemma m_alloc_lookup n i : i < n -> m_alloc n !! i = Some Raw.
  Proof. intros. apply lookup_replicate. auto. Qed.

  Lemma m_read_ok m i v : m !! i = Some (Live v) -> m_read m i = Ok v.
  Proof. unfold m_read. intros ->. reflexivity. Qed.

  Lemma m_construct_ok m i v :
    m !! i = Some Raw -> m_construct m i v = Ok (<[i:=Live v]> m).
  Proof. unfold m_construct. intros ->. reflexivity. Qed.

  Lemma m_destroy_live m i v :
    m !! i = Some (Live v) -> m_destroy m i = Ok (<[i:=Raw]> m, [v]).
  Proof. unfold m_destroy. intros ->. reflexivity. Qed.

  Lemma m_take_ok m i v :
    m !! i = Some (Live v) -> m_take m i = Ok (<[i:=Husk]> m, v).
  Proof. unfold m_take. intros ->. reflexivity. Qed.

  Lemma m_assign_live m i v w :
    m !! i = Some (Live w) -> m_assign m i v = Ok (<[i:=Live v]> m, [w]).
  Proof. unfold m_assign. intros ->. reflexivity. Qed.

  Lemma m_free_ok m :
    (forall i v, m !! i <> Some (Live v)) -> m_free m = Ok tt.
  Proof.
    intros H. unfold m_free. destruct (existsb is_live m) eqn:E; [|reflexivity].
    apply existsb_exists in E as (s & Hin & Hl).
    destruct s; try discriminate.
    apply elem_of_list_In, elem_of_list_lookup in Hin as [i Hi].
    exfalso. eapply H. eauto.
  Qed.
End slots.
