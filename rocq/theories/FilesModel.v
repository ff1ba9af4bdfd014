(** Files::read, Files::write and Files::Write_Watcher (rpp/files.h:19-47, rpp/pos/files_pos.cpp, rpp/w32/files_w32.cpp) and
    Async::read, Async::write and Async::wait (rpp/pos/asyncio_pos.cpp, rpp/w32/asyncio_w32.cpp).

    The operating system is a table of files and a table of open descriptors.  What it may decide by itself is an
    argument of each call: whether it refuses, and how many bytes a read or write transfers (at most what was asked for
    and never more than 0x7ffff000, as on Linux).  Each function runs without another program changing the file between
    its system calls; between two functions anything may have changed.  Warnings that are logged and the coroutine
    machinery around the Async functions (TaskModel, EventModel) are left out. *)
From stdpp Require Import gmap.
From Verif Require Import Base Word.
Open Scope Z_scope.

Notation path := (list Z) (only parsing).
Notation bytes := (list Z) (only parsing).
(** What a name stands for.  [Pipe]: anything that cannot be positioned *)
Inductive body := Regular (d : list Z) | Pipe.
Record file := File { contents : body; readable : bool; writable : bool; mtime : Z (* ns since 1970 *) }.
Record desc := Desc { d_name : list Z; d_write : bool; d_pos : nat }.
Record os := Os { files : gmap (list Z) file; fds : gmap nat desc; limit : nat; now : Z }.

Definition with_files f (s : os) : os := Os (f (files s)) (fds s) (limit s) (now s).
Definition with_fds f (s : os) : os := Os (files s) (f (fds s)) (limit s) (now s).

(** String_View::terminate (string1.h:35-42), then what the system sees of it: the bytes before the first zero *)
Fixpoint c_str (p : path) : path := match p with [] => [] | x :: p => if x =? 0 then [] else x :: c_str p end.

(** open(2), O_RDONLY.  [grants]: the system has no other objection *)
Definition open_rd (grants : bool) (p : path) (s : os) : option nat * os :=
  let p := c_str p in
  match files s !! p with
  | Some f =>
      if grants && readable f && bool_decide (size (fds s) < limit s)%nat then
        let fd := fresh (dom (fds s)) in (Some fd, with_fds (insert fd (Desc p false 0)) s)
      else (None, s)
  | None => (None, s)
  end.
(** open(2), O_WRONLY | O_CREAT | O_TRUNC.  A file that is created gets the permissions of the third argument, which the
    caller does not pass (asyncio_pos.cpp:50): [mode] is whatever is found there. *)
Definition open_wr (grants : bool) (mode : bool * bool) (p : path) (s : os) : option nat * os :=
  let p := c_str p in
  let fd := fresh (dom (fds s)) in
  if grants && bool_decide (size (fds s) < limit s)%nat then
    match files s !! p with
    | Some (File (Regular _) r w _) =>
        if w then (Some fd, with_fds (insert fd (Desc p true 0)) (with_files (insert p (File (Regular []) r w (now s))) s)) else (None, s)
    | Some (File Pipe r w _) => if w then (Some fd, with_fds (insert fd (Desc p true 0)) s) else (None, s)
    | None => (Some fd, with_fds (insert fd (Desc p true 0)) (with_files (insert p (File (Regular []) (fst mode) (snd mode) (now s))) s))
    end
  else (None, s).
Definition close (fd : nat) (s : os) : os := with_fds (delete fd) s.
(** lseek(2), SEEK_END; -1 on a pipe *)
Definition seek_end (fd : nat) (s : os) : Z :=
  match fds s !! fd with
  | Some d => match files s !! d_name d with Some (File (Regular x) _ _ _) => Z.of_nat (length x) | _ => -1 end
  | None => -1
  end.
Inductive answer := Refuse | Upto (n : nat).
Definition max_rw : Z := 2147479552. (* 0x7ffff000 *)
(** read(2): the bytes, or an error *)
Definition sys_read (a : answer) (fd : nat) (count : Z) (s : os) : option bytes :=
  match a, fds s !! fd with
  | Upto n, Some (Desc p false pos) =>
      match files s !! p with
      | Some (File (Regular x) _ _ _) => Some (take (Z.to_nat (Z.min (Z.of_nat n) (Z.min max_rw count))) (drop pos x))
      | _ => Some []
      end
  | _, _ => None
  end.
(** write(2): an error if the descriptor was not opened for writing *)
Definition sys_write (a : answer) (fd : nat) (data : bytes) (s : os) : option nat * os :=
  match a, fds s !! fd with
  | Upto n, Some (Desc p true pos) =>
      let k := Z.to_nat (Z.min (Z.of_nat n) (Z.min max_rw (Z.of_nat (length data)))) in
      match files s !! p with
      | Some (File (Regular x) r w _) =>
          (Some k, with_files (insert p (File (Regular (take pos x ++ take k data ++ drop (pos + k) x)) r w (now s))) s)
      | _ => (Some k, s)
      end
  | _, _ => (None, s)
  end.

(** files_pos.cpp:10-38; asyncio_pos.cpp:15-43 and asyncio_bsd.cpp:12-40 are the same.  A pipe makes [full_size] -1: it passes the assert, and the
    allocation of 2^64-1 bytes fails, which is an assert too (impl/alloc.cpp:103).  Vec::resize sets the bytes to zero. *)
Definition read (grants : bool) (a : answer) (p : path) (s : os) : res (option bytes * os) :=
  match open_rd grants p s with
  | (None, s) => Ok (None, s)
  | (Some fd, s) =>
      let full_size := seek_end fd s in
      assert_ (full_size <=? 4294967295);;
      assert_ (0 <=? full_size);;
      match sys_read a fd full_size s with
      | None => Ok (None, s)
      | Some got => Ok (Some (got ++ replicate (Z.to_nat full_size - length got) 0), close fd s)
      end
  end.
(** files_pos.cpp:40-60 *)
Definition write (grants : bool) (a : answer) (p : path) (data : bytes) (s : os) : bool * os :=
  match open_rd grants p s with
  | (None, s) => (false, s)
  | (Some fd, s) =>
      match sys_write a fd data s with
      | (None, s) => (false, s)
      | (Some _, s) => (true, close fd s)
      end
  end.
(** asyncio_pos.cpp:45-65, asyncio_bsd.cpp:42-62 *)
Definition async_write (grants : bool) (mode : bool * bool) (a : answer) (p : path) (data : bytes) (s : os) : bool * os :=
  match open_wr grants mode p s with
  | (None, s) => (false, s)
  | (Some fd, s) =>
      match sys_write a fd data s with
      | (None, s) => (false, s)
      | (Some _, s) => (true, close fd s)
      end
  end.

(** files_pos.cpp:62-73: st_mtime counts seconds; the cast is to u64 *)
Definition last_write_time (grants : bool) (p : path) (s : os) : option Z :=
  match files s !! c_str p with
  | Some f => if grants then Some (wrap 64 (mtime f / 1000000000)) else None
  | None => None
  end.
(** files_pos.cpp:75-77 *)
Definition before (first second : Z) : bool := first <? second.

(** files.h:45-46 *)
Record watcher := Watcher { w_path : path; last_write_time_ : Z }.
(** files.h:21-25 *)
Definition watch (grants : bool) (p : path) (s : os) : watcher :=
  match p with
  | [] => Watcher p 0
  | _ => match last_write_time grants p s with Some t => Watcher p t | None => Watcher p 0 end
  end.
(** files.h:35-42 *)
Definition poll (grants : bool) (w : watcher) (s : os) : bool * watcher :=
  match w_path w with
  | [] => (false, w)
  | _ =>
      match last_write_time grants (w_path w) s with
      | Some t => (before (last_write_time_ w) t, Watcher (w_path w) t)
      | None => (false, w)
      end
  end.
(** Polling at a sequence of moments *)
Fixpoint polls (w : watcher) (l : list (bool * os)) : list bool :=
  match l with [] => [] | (g, s) :: l => let '(b, w) := poll g w s in b :: polls w l end.

(** asyncio_pos.cpp:67-83.  timerfd_settime(2): refused unless 0 <= tv_nsec < 10^9; a zero time disarms the timer; the
    answer is the time, in ns, after which the descriptor becomes readable and the coroutine goes on, if ever. *)
Definition settime (tv_sec tv_nsec : Z) : res (option Z) :=
  assert_ ((0 <=? tv_nsec) && (tv_nsec <? 1000000000) && (0 <=? tv_sec));;
  if (tv_sec =? 0) && (tv_nsec =? 0) then Ok None else Ok (Some (tv_sec * 1000000000 + tv_nsec)).
Definition wait (ms : Z) : res (option Z) := settime (ms / 1000) (ms mod 1000 * 1000000).
(** w32/asyncio_w32.cpp:130-150: the due time in units of 100 ns; relative if negative, else absolute and long gone;
    negating the least number is undefined *)
Definition wait_w32 (ms : Z) : res Z :=
  let x := to_signed 64 (wrap 64 (ms * 10000)) in
  if x =? - 2 ^ 63 then UB else
  let due := - x in
  Ok (if due <? 0 then - due * 100 else 0).

(** ** Windows *)
(** [conv]: utf8_to_ucs2 (w32/w32_util.cpp:8-26), where it succeeds.  A file is opened for reading along with other
    readers, for writing alone; CREATE_ALWAYS creates or truncates; ReadFile and WriteFile on a file transfer
    everything or fail.  No other descriptor is open here, so sharing never refuses. *)
Record w32 := W32 { wfiles : gmap (list Z) (list Z); handles : nat }.
Section w32.
  Variable conv : path -> option (list Z).
  (** files_w32.cpp:37-73; [opens], [sizes], [reads]: what the system grants *)
  Definition w32_read (opens sizes reads : bool) (p : path) (s : w32) : res (option bytes * w32) :=
    match conv p with
    | None => Ok (None, s)
    | Some p =>
        match wfiles s !! p with
        | Some d =>
            if opens then
              if sizes then
                assert_ (Z.of_nat (length d) <=? 4294967295);;
                if reads then Ok (Some (take (Z.to_nat (wrap 32 (Z.of_nat (length d)))) d ++ replicate (length d - Z.to_nat (wrap 32 (Z.of_nat (length d)))) 0), s)
                else Ok (None, s)
              else Ok (None, W32 (wfiles s) (S (handles s)))     (* no CloseHandle: files_w32.cpp:53-56 *)
            else Ok (None, s)
        | None => Ok (None, s)
        end
    end.
  (** files_w32.cpp:75-100; [stops]: the write fails after so many bytes *)
  Definition w32_write (opens : bool) (stops : option nat) (p : path) (data : bytes) (s : w32) : res (bool * w32) :=
    match conv p with
    | None => Ok (false, s)
    | Some p =>
        if opens then
          let s := W32 (<[p := []]> (wfiles s)) (handles s) in
          assert_ (Z.of_nat (length data) <=? 4294967295);;
          match stops with
          | Some n => Ok (false, W32 (<[p := take n data]> (wfiles s)) (handles s))
          | None => Ok (true, W32 (<[p := take (Z.to_nat (wrap 32 (Z.of_nat (length data)))) data]> (wfiles s)) (handles s))
          end
        else Ok (false, s)
    end.
  (** asyncio_w32.cpp:35, math.h align_pow2 *)
  Definition sector (size : Z) : Z := Z.land (wrap 64 (size + 4095)) (2 ^ 64 - 4096).
  (** asyncio_w32.cpp:11-65.  [pending]: the read does not finish at once; if it does, that counts as a failure
      (line 53).  The event object goes to the pool, which closes it (EventModel). *)
  Definition w32_async_read (opens sizes events pending : bool) (p : path) (s : w32) : res (option bytes * w32) :=
    match conv p with
    | None => Ok (None, s)
    | Some p =>
        match wfiles s !! p with
        | Some d =>
            if opens && sizes then
              let size := Z.of_nat (length d) in
              let aligned := sector size in
              assert_ (aligned <=? 4294967295);;
              if events && pending then
                let got := take (Z.to_nat aligned) d in
                Ok (Some (take (length d) (got ++ replicate (Z.to_nat aligned - length got) 0)), s)
              else Ok (None, s)
            else Ok (None, s)
        | None => Ok (None, s)
        end
    end.
  (** asyncio_w32.cpp:67-128.  SetFilePointer takes a signed 32-bit distance and refuses a negative position. *)
  Definition w32_async_write (opens events pending points ends : bool) (p : path) (data : bytes) (s : w32) : res (bool * w32) :=
    match conv p with
    | None => Ok (false, s)
    | Some p =>
        if opens then
          let s := W32 (<[p := []]> (wfiles s)) (handles s) in
          if events then
            let size := Z.of_nat (length data) in
            let aligned := sector size in
            assert_ (aligned <=? 4294967295);;
            let padded := data ++ replicate (Z.to_nat aligned - length data) 0 in
            if pending then
              let s := W32 (<[p := padded]> (wfiles s)) (handles s) in
              let distance := to_signed 32 (wrap 32 size) in
              if points && (0 <=? distance) then
                if ends then Ok (true, W32 (<[p := take (Z.to_nat distance) padded]> (wfiles s)) (handles s))
                else Ok (false, s)
              else Ok (false, s)
            else Ok (false, W32 (<[p := padded]> (wfiles s)) (handles s))
          else Ok (false, s)
        else Ok (false, s)
    end.
End w32.
Close Scope Z_scope.
