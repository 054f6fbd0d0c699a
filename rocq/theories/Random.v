(** Model of random/randombytes.c: the Linux getrandom variant (L141-161), the
    /dev/urandom variant (L278-304), the Windows variant (L83-122) and the
    Emscripten variant (L318-354).

    The operating system is an adversarial list of system call results, consumed
    in order; when the list is exhausted the function is still waiting.  A
    successful call offers some bytes; the kernel stores at most the number of
    bytes asked for and returns how many it stored, so every short read
    (including 0) is possible. *)
From Verif Require Import Base.
Local Open Scope Z_scope.

Definition EINTR : Z := 4.
Definition EAGAIN : Z := 11.

(** The result of one getrandom(2) / read(2) call: [Got bs] stores the first
    min(count, |bs|) bytes of [bs]; [Err e] returns -1 with errno = e. *)
Inductive sysres := Got (bs : list Z) | Err (e : Z).

(** What the function did: returned a code, or is still waiting for the system;
    in both cases with the current contents of the caller's buffer. *)
Inductive run := Done (ret : Z) (buf : list Z) | Waiting (buf : list Z).

Definition GETRANDOM_MAX : Z := 33554431.

(** L149-158, the loop of [randombytes_linux_randombytes_getrandom].  Offsets are
    [size_t]; [int ret] holds at most 33554431. *)
Fixpoint getrandom_loop (es : list sysres) (buf : list Z) (offset n : Z) : outcome run :=
  if n <=? 0 then Ret (Done 0 buf) else                                         (* L149, L160 *)
  match es with
  | [] => Ret (Waiting buf)
  | Err e :: es' =>
      if e =? EINTR then getrandom_loop es' buf offset n                        (* L152-154 *)
      else Ret (Done (-1) buf)                                                  (* L155 *)
  | Got bs :: es' =>
      let chunk := if n <=? GETRANDOM_MAX then n else GETRANDOM_MAX in          (* L151 *)
      let w := slice bs 0 (Z.min (zlen bs) chunk) in                            (* L153 *)
      buf <- copy buf offset w 0 (zlen w) ;;
      getrandom_loop es' buf (offset + zlen w) (n - zlen w)                     (* L156-157 *)
  end.
(** L141-161 *)
Definition randombytes_getrandom (es : list sysres) (buf : list Z) (n : Z) : outcome run :=
  getrandom_loop es buf 0 n.

(** L283-285: [open] is retried on EINTR; [opens] are its results ([None] for a
    descriptor, [Some e] for errno). *)
Fixpoint open_loop (opens : list (option Z)) : option bool :=
  match opens with
  | [] => None                                   (* still waiting *)
  | None :: _ => Some true
  | Some e :: r => if e =? EINTR then open_loop r else Some false
  end.

Definition SSIZE_MAX : Z := 2 ^ 63 - 1.
(** L291-300, the read loop of [randombytes_linux_randombytes_urandom]. *)
Fixpoint urandom_loop (es : list sysres) (buf : list Z) (offset n : Z) : outcome run :=
  if n <=? 0 then Ret (Done 0 buf) else
  match es with
  | [] => Ret (Waiting buf)
  | Err e :: es' =>
      if (e =? EAGAIN) || (e =? EINTR) then urandom_loop es' buf offset n       (* L294-296 *)
      else Ret (Done (-1) buf)                                                  (* L297 *)
  | Got bs :: es' =>
      let count := if n <=? SSIZE_MAX then n else SSIZE_MAX in                  (* L292 *)
      let w := slice bs 0 (Z.min (zlen bs) count) in                            (* L293 *)
      buf <- copy buf offset w 0 (zlen w) ;;
      urandom_loop es' buf (offset + zlen w) (n - zlen w)                       (* L298-299 *)
  end.
(** L278-304.  [entropy_ok] is the outcome of [randombytes_linux_wait_for_entropy]
    (L185-274), which only decides whether to go on; RandomDev.v models it. *)
Definition randombytes_urandom (opens : list (option Z)) (entropy_ok : bool) (es : list sysres) (buf : list Z) (n : Z) : outcome run :=
  match open_loop opens with
  | None => Ret (Waiting buf)
  | Some false => Ret (Done (-1) buf)                                           (* L286 *)
  | Some true => if entropy_ok then urandom_loop es buf 0 n                     (* L288 *)
                 else Ret (Done (-1) buf)
  end.

(** L110-116, the CryptGenRandom fallback loop; [gs] are the results of the calls
    ([Some bs]: stored the requested number of bytes, taken from [bs]). *)
Fixpoint win32_loop (gs : list (option (list Z))) (buf : list Z) (offset n : Z) : outcome run :=
  if n <=? 0 then Ret (Done 0 buf) else
  match gs with
  | [] => Ret (Waiting buf)
  | None :: _ => Ret (Done (-1) buf)                                            (* L113 *)
  | Some bs :: gs' =>
      let to_read := if n <? 0xFFFFFFFF then n else 0xFFFFFFFF in               (* L111 *)
      buf <- copy buf offset (slice bs 0 to_read) 0 to_read ;;                  (* L112 *)
      win32_loop gs' buf (offset + to_read) (n - to_read)                       (* L114-115 *)
  end.
(** L83-122.  The size parameter of BCryptGenRandom is a 32-bit ULONG, so the
    [size_t] argument is converted modulo 2^32.  [bcrypt]: its result and the
    bytes it stores; [acquire], [release]: results of the context calls.
    A failing BCryptGenRandom or CryptGenRandom is assumed to store nothing. *)
Definition randombytes_win32 (bcrypt : option (Z -> list Z)) (acquire release : bool) (gs : list (option (list Z))) (buf : list Z) (n : Z)
  : outcome run :=
  buf <- copy buf 0 (zeros n) 0 n ;;                                            (* memset, L87 *)
  match bcrypt with
  | Some f =>
      let k := u32 n in                                                         (* L89-93 *)
      buf <- copy buf 0 (f k) 0 k ;;
      Ret (Done 0 buf)                                                          (* L95-98 *)
  | None =>
      if negb acquire then Ret (Done (-1) buf) else                             (* L106-108 *)
      r <- win32_loop gs buf 0 n ;;
      match r with
      | Done 0 buf => if release then Ret (Done 0 buf) else Ret (Done (-1) buf) (* L118-121 *)
      | r => Ret r
      end
  end.

(** L318-354, Emscripten: the JavaScript part either stores n bytes and returns 0,
    or returns -1 or -2. *)
Definition randombytes_js (js : Z * list Z) (buf : list Z) (n : Z) : outcome run :=
  let '(ret, bs) := js in
  if ret =? 0 then buf <- copy buf 0 bs 0 n ;; Ret (Done 0 buf)                 (* L343-344 *)
  else if (ret =? -1) || (ret =? -2) then Ret (Done (-1) buf)                   (* L345-350 *)
  else Ret (Done (-3) buf).                                                     (* L352 *)
