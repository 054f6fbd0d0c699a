(** wasm/hybrid-pqc.c as used by a page: one linear memory, buffers from [mem_alloc] and [mem_free], calls of the
    exported functions at addresses of that memory (address 0 is NULL).

    - The functions run as the whole programs of HybridProg.v on the linear memory, so what a call writes outside
      the buffer it was given is visible here, as it is in WebAssembly.
    - [wm_alloc n live size]: the answer of the [n]-th malloc when [live] are the live blocks (address, size).
      The bookkeeping of malloc and free, the stack and the hash contexts live outside the modelled memory.
    - [rbs n] is the random source during the [n]-th command.
    - [wiped] is a ghost component: the ranges [mem_free] has cleared and malloc has not handed out again. *)
From Verif Require Import Base Hybrid Heap HybridProg.
From Verif Require Wasm.
Local Open Scope Z_scope.
Local Open Scope heap_scope.

Record wst := { lin : list Z; live : list (Z * Z); wiped : list (Z * Z); count : nat }.
Inductive cmd :=
| MemAlloc (size : Z)
| MemFree (p size : Z)
| Poke (p : Z) (bs : list Z)                  (* the page writes bytes into a buffer *)
| KeypairSeed (pk sk seed : Z)
| Keypair (pk sk : Z)
| Sign (sm smlen m mlen sk : Z)
| Verify (m mlen sm smlen pk : Z)
| Expand (seed out : Z)
| RandomBytes (buf n : Z)
| SeedExpander (seed seedlen out outlen : Z).
(** A page: commands, each chosen from the results so far; [Peek] reads a buffer. *)
Inductive page := Done (res : Z) | Do (c : cmd) (k : Z -> page) | Peek (p n : Z) (k : list Z -> page).

Definition meets (a b : Z * Z) : bool := (fst a <? fst b + snd b) && (fst b <? fst a + snd a).
Fixpoint drop_block (p : Z) (l : list (Z * Z)) : list (Z * Z) :=
  match l with [] => [] | (q, k) :: l => if p =? q then l else (q, k) :: drop_block p l end.

Section Session.
Variables loc locw : Z -> list Z.
Variable fuel : nat.
Variable wm_alloc : nat -> list (Z * Z) -> Z -> Z.
Variable rbs : nat -> rnd.

(** wasm L29-32 with the check of hybrid.c L175 *)
Definition dp_keypair_seed (mem : list Z) (pk sk seed : Z) : M (Z * list Z) :=
  if (pk =? 0) || (sk =? 0) || (seed =? 0) then mret (-1, mem) else keypair_seed_p loc locw fuel mem pk sk seed.
(** wasm L34-37, hybrid.c L248 *)
Definition dp_keypair (rb : rnd) (mem : list Z) (pk sk : Z) : M (Z * list Z) :=
  if (pk =? 0) || (sk =? 0) then mret (-1, mem) else keypair_p loc locw fuel rb mem pk sk.
(** wasm L39-42, hybrid.c L472; the length is stored as 8 bytes (hybrid.c L561) at the [size_t *smlen] *)
Definition dp_sign (rb : rnd) (mem : list Z) (sm smlen m mlen sk : Z) : M (Z * list Z) :=
  if (sm =? 0) || (smlen =? 0) || (m =? 0) || (sk =? 0) then mret (-1, mem) else
  '(c, mem, len) <- sign_compact_p loc fuel rb mem sm 0 m mlen sk ;;
  if negb (c =? 0) then mret (c, mem) else
  mem <- copy mem smlen (Wasm.le_bytes 8 len) 0 8 ;; mret (0, mem).
(** wasm L44-47, hybrid.c L673 *)
Definition dp_verify (mem : list Z) (m mlen sm smlen pk : Z) : M Z :=
  if (m =? 0) || (sm =? 0) || (pk =? 0) then mret (-1) else verify_compact_p loc fuel mem m mlen sm smlen pk.
(** wasm L54-57 *)
Definition dp_random (rb : rnd) (mem : list Z) (buf n : Z) : M (Z * list Z) :=
  let '(r, bs) := rb n in mem <- copy mem buf bs 0 n ;; mret (r, mem).
(** wasm L59-62, shake_prng.c L67-82: the seed is absorbed before output is written *)
Definition dp_seedexpander (mem : list Z) (seed seedlen out outlen : Z) : M (Z * list Z) :=
  if (seed =? 0) || (out =? 0) then mret (-1, mem) else
  if seedlen <? 32 then mret (-2, mem) else
  if outlen <=? seedlen then mret (-3, mem) else
  sd <- rdrange mem seed seedlen ;;
  o <- rdrange mem out outlen ;;
  '(c, o) <- seedexpander_wrapper_h (Some sd) seedlen (Some o) outlen ;;
  match o with
  | None => lift Undef
  | Some o => mem <- copy mem out o 0 outlen ;; mret (c, mem)
  end.

Definition upd (st : wst) (mem : list Z) : wst := {| lin := mem; live := live st; wiped := wiped st; count := S (count st) |}.
Definition step (st : wst) (c : cmd) : M (wst * Z) :=
  let mem := lin st in
  match c with
  | MemAlloc size =>                                                        (* wasm L13-21 *)
      let p := wm_alloc (count st) (live st) size in
      if p =? 0 then mret (upd st mem, 0)
      else mret ({| lin := mem; live := (p, size) :: live st;
                    wiped := filter (fun w => negb (meets w (p, size))) (wiped st); count := S (count st) |}, p)
  | MemFree p size =>                                                       (* wasm L23-27 *)
      mem <- copy mem p (zeros size) 0 size ;;
      mret ({| lin := mem; live := drop_block p (live st); wiped := (p, size) :: wiped st; count := S (count st) |}, 0)
  | Poke p bs => mem <- copy mem p bs 0 (zlen bs) ;; mret (upd st mem, 0)
  | KeypairSeed pk sk seed => '(c, mem) <- dp_keypair_seed mem pk sk seed ;; mret (upd st mem, c)
  | Keypair pk sk => '(c, mem) <- dp_keypair (rbs (count st)) mem pk sk ;; mret (upd st mem, c)
  | Sign sm smlen m mlen sk => '(c, mem) <- dp_sign (rbs (count st)) mem sm smlen m mlen sk ;; mret (upd st mem, c)
  | Verify m mlen sm smlen pk => c <- dp_verify mem m mlen sm smlen pk ;; mret (upd st mem, c)
  | Expand seed out => '(c, mem) <- keypair_seed_expander_p mem seed out ;; mret (upd st mem, c)   (* wasm L49-52 *)
  | RandomBytes buf n => '(c, mem) <- dp_random (rbs (count st)) mem buf n ;; mret (upd st mem, c)
  | SeedExpander seed seedlen out outlen => '(c, mem) <- dp_seedexpander mem seed seedlen out outlen ;; mret (upd st mem, c)
  end.
Fixpoint run_page (pg : page) (st : wst) : M (wst * Z) :=
  match pg with
  | Done res => mret (st, res)
  | Do c k => '(st, x) <- step st c ;; run_page (k x) st
  | Peek p n k => bs <- rdrange (lin st) p n ;; run_page (k bs) st
  end.
End Session.
