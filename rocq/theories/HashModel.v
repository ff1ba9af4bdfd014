(** Model of rpp/hash.h and of the string hashes in rpp/string0.h. *)
From Verif Require Import Word.
From Flocq Require Import IEEE754.Binary IEEE754.Bits.
Open Scope Z_scope.

(** One [at ^= at >> k] step on a u64. *)
Definition xorshift (k x : Z) : Z := Z.lxor x (Z.shiftr x k).

(** rpp/hash.h:14-31 *)
Definition BIT_NOISE1 : Z := 0xA278032FB08BA40D.
Definition BIT_NOISE2 : Z := 0x9D9FDC30FD876B1D.
Definition BIT_NOISE3 : Z := 0xEC705118C5FBDA13.
Definition BIT_NOISE4 : Z := 0xDB8BDB77D7DF9811.
Definition BIT_NOISE5 : Z := 0xD8081C73F0FAA127.
Definition squirrel5 (at_ : Z) : Z :=
  let at_ := wrap 64 (at_ * BIT_NOISE1) in
  let at_ := xorshift 9 at_ in
  let at_ := wrap 64 (at_ + BIT_NOISE2) in
  let at_ := xorshift 11 at_ in
  let at_ := wrap 64 (at_ * BIT_NOISE3) in
  let at_ := xorshift 13 at_ in
  let at_ := wrap 64 (at_ + BIT_NOISE4) in
  let at_ := xorshift 15 at_ in
  let at_ := wrap 64 (at_ * BIT_NOISE5) in
  xorshift 17 at_.

(** rpp/hash.h:33-35 *)
Definition hash_combine (h1 h2 : Z) : Z := squirrel5 (wrap 64 (h1 + h2)).

(** rpp/hash.h:40-52: [static_cast<u64>(key)] of any integer type is reduction
    modulo 2^64.  Pointers (68-73) are u64 already. *)
Definition hash_int (key : Z) : Z := squirrel5 (wrap 64 key).

(** rpp/hash.h:54-66: the bits of the float, as laid out by IEEE 754. *)
Definition hash_f32 (x : binary32) : Z := squirrel5 (bits_of_b32 x).
Definition hash_f64 (x : binary64) : Z := squirrel5 (bits_of_b64 x).

(** rpp/hash.h:87-90, for a value whose hash is [h] *)
Definition hash_nonzero (h : Z) : Z := Z.lor h 1.

(** rpp/hash.h:92-95: [squirrel5((hash(v1) + ... + hash(vn)))], u64 addition *)
Definition hash_many (hs : list Z) : Z := squirrel5 (foldr (fun h s => wrap 64 (h + s)) 0 hs).

(** rpp/string0.h:285-301: both hashes run this loop over the bytes (u8). *)
Definition hash_bytes (bytes : list Z) : Z :=
  fold_left (fun h c => hash_combine h (hash_int c)) bytes 0.

(** rpp/hash.h:97-103 on the characters of a literal: [hash(literal[i])] is
    the hash of a char, which is signed on the supported platforms, so a byte
    of 128 or more is sign-extended. *)
Definition hash_literal (bytes : list Z) (seed : Z) : Z :=
  let s := fold_left (fun h c => hash_combine h (hash_int (to_signed 8 c))) bytes seed in
  if s =? 0 then 1 else s.

(** [==] on floating point values (used by keyed containers). *)
Definition f64_eq (x y : binary64) : bool :=
  match Bcompare 53 1024 x y with Some Eq => true | _ => false end.
Definition f32_eq (x y : binary32) : bool :=
  match Bcompare 24 128 x y with Some Eq => true | _ => false end.
Close Scope Z_scope.
