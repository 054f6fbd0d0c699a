(** What a page may ask of the exported functions of wasm/hybrid-pqc.c and what each call then does (C76). *)
From Verif Require Import Base BufSpec SpongePure Hybrid HybridProg HybridProgSpec WasmSession.
Local Open Scope Z_scope.

Definition apart (a n b k : Z) : Prop := a + n <= b \/ b + k <= a.
(** [n] bytes at [p] lie in one live block *)
Definition buf (st : wst) (p n : Z) : Prop := 0 <= n /\ exists q k, In (q, k) (live st) /\ q <= p /\ p + n <= q + k.
(** a secret key produced by key generation is stored at [p] *)
Definition generated (st : wst) (p : Z) : Prop :=
  exists seed pk, zlen seed = 160 /\ bytes_ok seed /\ hybrid_keys seed pk (slice (lin st) p 4064).

(** The contract of each command *)
Definition allowed (st : wst) (c : cmd) : Prop :=
  match c with
  | MemAlloc size => 0 <= size
  | MemFree p size => exists k, In (p, k) (live st) /\ 0 <= size <= k
  | Poke p bs => buf st p (zlen bs) /\ bytes_ok bs
  | KeypairSeed pk sk seed => pk = 0 \/ sk = 0 \/ seed = 0 \/ buf st pk 1408 /\ buf st sk 4064 /\ buf st seed 160 /\ apart pk 1408 sk 4064
  | Keypair pk sk => pk = 0 \/ sk = 0 \/ buf st pk 1408 /\ buf st sk 4064 /\ apart pk 1408 sk 4064
  | Sign sm smlen m mlen sk => sm = 0 \/ smlen = 0 \/ m = 0 \/ sk = 0 \/ mlen <= 0 \/ 64 < mlen \/
      buf st sm (2526 + mlen) /\ buf st smlen 8 /\ buf st m mlen /\ buf st sk 4064 /\ generated st sk /\ apart m mlen sm 2526
  | Verify m mlen sm smlen pk => m = 0 \/ sm = 0 \/ pk = 0 \/ buf st m mlen /\ buf st sm smlen /\ buf st pk 1408
  | Expand seed out => buf st seed 96 /\ buf st out 160 /\ (out <= seed + 32 \/ seed + 96 <= out)
  | RandomBytes p n => buf st p n
  | SeedExpander seed seedlen out outlen => seed = 0 \/ out = 0 \/ buf st seed seedlen /\ buf st out outlen
  end.

(** only the memory changes, to [mem] *)
Definition memory (st : wst) (mem : list Z) (st' : wst) : Prop :=
  lin st' = mem /\ live st' = live st /\ wiped st' = wiped st /\ count st' = S (count st).
Definition unchanged (st st' : wst) : Prop := memory st (lin st) st'.

(** What a command does: from [st] to [st'] with result [x] *)
Definition effect (rbs : nat -> rnd) (st : wst) (c : cmd) (st' : wst) (x : Z) : Prop :=
  match c with
  | MemAlloc size =>
      x = 0 /\ unchanged st st' \/
      0 < x /\ x + size <= zlen (lin st) /\ (forall q k, In (q, k) (live st) -> x <> q /\ apart x size q k) /\
      lin st' = lin st /\ live st' = (x, size) :: live st /\ count st' = S (count st) /\
      (forall p n, In (p, n) (wiped st') <-> In (p, n) (wiped st) /\ apart p n x size)
  | MemFree p size =>
      x = 0 /\ written (lin st) p (zeros size) (lin st') /\ count st' = S (count st) /\ wiped st' = (p, size) :: wiped st /\
      (forall q k, In (q, k) (live st') <-> In (q, k) (live st) /\ q <> p)
  | Poke p bs => x = 0 /\ exists mem, written (lin st) p bs mem /\ memory st mem st'
  | KeypairSeed pk sk seed =>
      (pk = 0 \/ sk = 0 \/ seed = 0) /\ x = -1 /\ unchanged st st' \/
      x = 0 /\ exists pkb skb mem1 mem2, hybrid_keys (slice (lin st) seed 160) pkb skb /\ zlen pkb = 1408 /\ zlen skb = 4064 /\
        written (lin st) pk pkb mem1 /\ written mem1 sk skb mem2 /\ memory st mem2 st'
  | Keypair pk sk =>
      (pk = 0 \/ sk = 0 \/ fst (rbs (count st) 160) <> 0) /\ x = -1 /\ unchanged st st' \/
      x = 0 /\ exists pkb skb mem1 mem2, hybrid_keys (snd (rbs (count st) 160)) pkb skb /\ zlen pkb = 1408 /\ zlen skb = 4064 /\
        written (lin st) pk pkb mem1 /\ written mem1 sk skb mem2 /\ memory st mem2 st'
  | Sign sm smlen m mlen sk =>
      (sm = 0 \/ smlen = 0 \/ m = 0 \/ sk = 0 \/ mlen <= 0 \/ 64 < mlen \/ fst (rbs (count st) 40) <> 0) /\ x = -1 /\ unchanged st st' \/
      x = 0 /\ 1 <= mlen <= 64 /\ exists smb mem1 mem2,
        compact_signed (slice (lin st) sk 4064) (snd (rbs (count st) 40)) (slice (lin st) m mlen) smb /\ zlen smb = 2526 + mlen /\
        written (lin st) sm smb mem1 /\
        (* the length, little-endian in eight bytes *)
        written mem1 smlen [(2526 + mlen) mod 256; (2526 + mlen) / 256; 0; 0; 0; 0; 0; 0] mem2 /\ memory st mem2 st'
  | Verify m mlen sm smlen pk =>
      unchanged st st' /\ -4 <= x <= 0 /\
      (x = 0 <-> m <> 0 /\ sm <> 0 /\ pk <> 0 /\ compact_valid (slice (lin st) pk 1408) (slice (lin st) sm smlen) (slice (lin st) m mlen))
  | Expand seed out =>                       (* with the defect of C02: every second byte of the first 64 counts as 0 *)
      let s := slice (lin st) seed 96 in
      let y := shake256_bytes (map (fun i => if Nat.even i then nth i s 0 else 0) (seq 0 64) ++ [2]) 128 in
      x = 0 /\ exists mem, written (lin st) out (slice y 0 32 ++ slice s 64 32 ++ slice y 32 96) mem /\ memory st mem st'
  | RandomBytes p n => x = fst (rbs (count st) n) /\ exists mem, written (lin st) p (snd (rbs (count st) n)) mem /\ memory st mem st'
  | SeedExpander seed seedlen out outlen =>
      (seed = 0 \/ out = 0) /\ x = -1 /\ unchanged st st' \/
      seed <> 0 /\ out <> 0 /\ seedlen < 32 /\ x = -2 /\ unchanged st st' \/
      seed <> 0 /\ out <> 0 /\ 32 <= seedlen /\ outlen <= seedlen /\ x = -3 /\ unchanged st st' \/
      seed <> 0 /\ out <> 0 /\ 32 <= seedlen < outlen /\ x = 0 /\
        exists mem, written (lin st) out (shake256_bytes (slice (lin st) seed seedlen ++ [2]) outlen) mem /\ memory st mem st'
  end.

(** The ranges a command may write *)
Definition outputs (c : cmd) : list (Z * Z) :=
  match c with
  | MemAlloc _ | Verify _ _ _ _ _ => []
  | MemFree p size => [(p, size)]
  | Poke p bs => [(p, zlen bs)]
  | KeypairSeed pk sk _ | Keypair pk sk => [(pk, 1408); (sk, 4064)]
  | Sign sm smlen _ mlen _ => [(sm, 2526 + mlen); (smlen, 8)]
  | Expand _ out => [(out, 160)]
  | RandomBytes p n => [(p, n)]
  | SeedExpander _ _ out outlen => [(out, outlen)]
  end.

(** A page that keeps to the contract, whatever the allowed commands answer *)
Fixpoint keeps (rbs : nat -> rnd) (pg : page) (st : wst) : Prop :=
  match pg with
  | Done _ => True
  | Do c k => allowed st c /\ forall st' x, effect rbs st c st' x -> keeps rbs (k x) st'
  | Peek p n k => buf st p n /\ keeps rbs (k (slice (lin st) p n)) st
  end.
(** Blocks handed out and given back *)
Inductive event := Got (p n : Z) | Gave (p n : Z).
Definition events (c : cmd) (x : Z) : list event :=
  match c with
  | MemAlloc size => if x =? 0 then [] else [Got x size]
  | MemFree p size => [Gave p size]
  | _ => []
  end.
(** The page [pg] goes from [st] to [st'], ends with [res], and these events happen, in this order *)
Inductive session (rbs : nat -> rnd) : page -> wst -> wst -> Z -> list event -> Prop :=
| s_done res st : session rbs (Done res) st st res []
| s_do c k st x st1 st' res ev : allowed st c -> effect rbs st c st1 x -> session rbs (k x) st1 st' res ev -> session rbs (Do c k) st st' res (events c x ++ ev)
| s_peek p n k st st' res ev : buf st p n -> session rbs (k (slice (lin st) p n)) st st' res ev -> session rbs (Peek p n k) st st' res ev.

(** Well-formed state: live blocks are apart, inside memory and not at NULL; cleared ranges are zero and belong to no live block *)
Record wf (st : wst) : Prop := {
  wf_bytes : bytes_ok (lin st);
  wf_live : forall q k, In (q, k) (live st) -> 0 < q /\ 0 <= k /\ q + k <= zlen (lin st);
  wf_addr : NoDup (map fst (live st));
  wf_apart : forall q k q' k', In (q, k) (live st) -> In (q', k') (live st) -> q <> q' -> apart q k q' k';
  wf_zero : forall p n, In (p, n) (wiped st) -> 0 <= p /\ 0 <= n /\ p + n <= zlen (lin st) /\ slice (lin st) p n = zeros n;
  wf_wiped : forall p n q k, In (p, n) (wiped st) -> In (q, k) (live st) -> apart p n q k }.

(** malloc: NULL, or a fresh block inside [size] bytes of memory *)
Definition allocator (size : Z) (wm_alloc : nat -> list (Z * Z) -> Z -> Z) : Prop :=
  forall i l n, 0 <= n -> let p := wm_alloc i l n in
    p = 0 \/ 0 < p /\ p + n <= size /\ forall q k, In (q, k) l -> p <> q /\ apart p n q k.
Definition random_source (rbs : nat -> rnd) : Prop := forall i n, 0 <= n -> zlen (snd (rbs i n)) = n /\ bytes_ok (snd (rbs i n)).
