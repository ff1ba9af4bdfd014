(** Model of the hashes of vectors (rpp/vmath.h) and source locations (rpp/log.h). *)
From Verif Require Import Word HashModel.
From Flocq Require Import IEEE754.Binary IEEE754.Bits.
Open Scope Z_scope.

(** rpp/vmath.h:957-964, over the hashes of the components, in order *)
Definition hash_vect (hs : list Z) : Z := fold_left hash_combine hs 0.
(** Vect<f32, N> and Vect<i32 or u32, N>: [rpp::hash(v[i])] for each component *)
Definition hash_vect_f32 (v : list binary32) : Z := hash_vect (hash_f32 <$> v).
Definition hash_vect_int (v : list Z) : Z := hash_vect (hash_int <$> v).

(** rpp/log.h:55-59 (Log::Location); the two names as bytes *)
Record location := Loc { l_function : list Z; l_file : list Z; l_line : Z }.
(** rpp/log.h:105-107 *)
Definition hash_location (l : location) : Z :=
  hash_many [hash_bytes (l_file l); hash_bytes (l_function l); hash_int (l_line l)].
Close Scope Z_scope.
