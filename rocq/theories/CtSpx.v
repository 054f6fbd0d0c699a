(** sphincs/*.c, key generation and signing, as instrumented programs (CtBase.v).  The structure
    follows SpxBuf.v, function by function; [CtSpxProofs.v] shows that the programs compute what
    that model computes.

    Bytes, address bytes, tree and leaf indices, FORS indices and WOTS+ chain lengths are data.
    Positions, loop counters and lengths are integers.  An offset handed to a callee ([sig + 32 * i])
    is an integer, so pointers never depend on data. *)
From Verif Require Import Base Sponge Spx CtBase CtTweet CtKeccak.
Local Open Scope Z_scope.

Section Prog.
Context {V : Type} (O : ops V).
Variables loc locw : Z -> list V.
Notation "# c" := (cst O c) (at level 1, format "# c").
Notation arr := (list V).
Notation rd := (lrd O).
Notation wr := lwr.
Notation cp := (lcopy O).
(** [if (x == y)] *)
Definition lcmp (x y : V) : L bool := ([EBr (reveal O x =? reveal O y)], reveal O x =? reveal O y).
(** a callee wrote [d] through the pointer [out + off] *)
Definition lput (out : arr) (off : Z) (d : arr) (n : Z) : arr := value (cp out off d 0 n).

(** utils.c L13-22, L24-29, L34-42 *)
Definition ull_to_bytes_l (out : arr) (ooff outlen : Z) (inn : V) : L arr :=
  '(out, _) <~ lfor outlen (fun k '(out, inn) =>
                 out <~ wr out (ooff + (outlen - 1 - k)) (bi O And inn #0xff) ;;;
                 lret (out, un O (Shr 8) inn)) (out, inn) ;;;
  lret out.
Definition u32_to_bytes_l (out : arr) (ooff : Z) (inn : V) : L arr :=
  out <~ wr out ooff (un O (Wrap 8) (un O (Shr 24) inn)) ;;;
  out <~ wr out (ooff + 1) (un O (Wrap 8) (un O (Shr 16) inn)) ;;;
  out <~ wr out (ooff + 2) (un O (Wrap 8) (un O (Shr 8) inn)) ;;;
  wr out (ooff + 3) (un O (Wrap 8) inn).
Definition bytes_to_ull_l (inn : arr) (ioff inlen : Z) : L V :=
  lfor inlen (fun i retval =>
    b <~ rd inn (ioff + i) ;;;
    lret (bi O Or retval (un O (Wrap 64) (un O (Shl (8 * (inlen - 1 - i))) b)))) #0.

(** address.c *)
Definition set_layer_addr_l (a : arr) (layer : V) := wr a 3 (un O (Wrap 8) layer).
Definition set_tree_addr_l (a : arr) (tree : V) := ull_to_bytes_l a 8 8 tree.
Definition set_type_l (a : arr) (type : Z) := wr a 19 (un O (Wrap 8) #type).
Definition copy_subtree_addr_l (out inn : arr) := cp out 0 inn 0 16.
Definition set_keypair_addr_l (a : arr) (kp : V) := wr a 23 (un O (Wrap 8) kp).
Definition copy_keypair_addr_l (out inn : arr) :=
  out <~ cp out 0 inn 0 16 ;;;
  b <~ rd inn 23 ;;;
  wr out 23 b.
Definition set_chain_addr_l (a : arr) (c : V) := wr a 27 (un O (Wrap 8) c).
Definition set_hash_addr_l (a : arr) (h : V) := wr a 31 (un O (Wrap 8) h).
Definition set_tree_height_l (a : arr) (h : V) := wr a 27 (un O (Wrap 8) h).
Definition set_tree_index_l (a : arr) (i : V) := u32_to_bytes_l a 28 i.

(** The two seeds of [spx_ctx]. *)
Definition ctx_l : Type := (arr * arr)%type.
(** shake256 from [inp + ioff] to [out + off] *)
Definition shake256_at_l (out : arr) (off n : Z) (inp : arr) (ioff ilen : Z) : L arr :=
  d <~ shake_l O SHAKE256_RATE (lptr out off n) n (lptr inp ioff ilen) ilen ;;;
  lret (lput out off d n).
Fixpoint absorb_pieces_l (c : inc_l (V := V)) (pieces : list arr) : L inc_l :=
  match pieces with
  | [] => lret c
  | p :: rest => c <~ inc_absorb_l O c SHAKE256_RATE p (zlen p) ;;; absorb_pieces_l c rest
  end.
Definition shake256_pieces_l (out : arr) (off n : Z) (pieces : list arr) : L arr :=
  s <~ linit O 25 ;;;
  c <~ absorb_pieces_l (s, 0) pieces ;;;
  c <~ inc_finalize_l O c SHAKE256_RATE 0x1F ;;;
  '(out, _) <~ inc_squeeze_l O out off n c SHAKE256_RATE ;;;
  lret out.

(** thash_shake_simple.c L15-24 *)
Definition thash_l (ctx : ctx_l) (out : arr) (ooff : Z) (inp : arr) (ioff inblocks : Z) (addr : arr) : L arr :=
  buf <~ cp (loc (64 + inblocks * 32)) 0 (fst ctx) 0 32 ;;;
  buf <~ cp buf 32 addr 0 32 ;;;
  buf <~ cp buf 64 inp ioff (inblocks * 32) ;;;
  shake256_at_l out ooff 32 buf 0 (64 + inblocks * 32).
(** hash_shake.c L14-23, L29-43, L50-82 *)
Definition prf_addr_l (ctx : ctx_l) (out : arr) (ooff : Z) (addr : arr) : L arr :=
  buf <~ cp (loc 96) 0 (fst ctx) 0 32 ;;;
  buf <~ cp buf 32 addr 0 32 ;;;
  buf <~ cp buf 64 (snd ctx) 0 32 ;;;
  shake256_at_l out ooff 32 buf 0 96.
Definition gen_message_random_l (mem : arr) (roff : Z) (sk : arr) (skoff : Z) (optrand : arr) (mo mlen : Z) : L arr :=
  shake256_pieces_l mem roff 32 [lptr sk skoff 32; lptr optrand 0 32; lptr mem mo mlen].
Definition hash_message_l (digest0 mem : arr) (roff : Z) (pk : arr) (pkoff mo mlen : Z) : L (arr * V * V) :=
  buf <~ shake256_pieces_l (loc 49) 0 49 [lptr mem roff 32; lptr pk pkoff 64; lptr mem mo mlen] ;;;
  digest <~ cp digest0 0 buf 0 40 ;;;
  tree <~ bytes_to_ull_l buf 40 8 ;;;
  let tree := bi O And tree #(Z.shiftr (2 ^ 64 - 1) (64 - 64)) in
  leaf <~ bytes_to_ull_l buf 48 1 ;;;
  let leaf := bi O And (un O (Wrap 32) leaf) #(Z.shiftr (2 ^ 32 - 1) (32 - 4)) in
  lret (digest, tree, leaf).

(** wots.c L45-63, L66-82, L85-88 *)
Definition base_w_l (output : arr) (ooff out_len : Z) (input : arr) (ioff : Z) : L arr :=
  '(inn, out, total, bits, output) <~
    lfor out_len (fun consumed '(inn, out, total, bits, output) =>
      '(inn, total, bits) <~
        lif (bits =? 0) (b <~ rd input (ioff + inn) ;;; lret (inn + 1, b, bits + 8))
         (lret (inn, total, bits)) ;;;
      let bits := bits - 4 in
      output <~ wr output (ooff + out) (bi O And (un O (Shr bits) total) #15) ;;;
      lret (inn, out + 1, total, bits, output))
      (0, 0, #0, 0, output) ;;;
  lret output.
Definition wots_checksum_l (lengths : arr) : L arr :=
  csum <~ lfor 64 (fun i csum => m <~ rd lengths i ;;; lret (un O (Wrap 32) (bi O Add csum (un O (Wrap 32) (bi O Sub #15 m))))) #0 ;;;
  let csum := un O (Wrap 32) (un O (Shl 4) csum) in
  csum_bytes <~ ull_to_bytes_l (loc 2) 0 2 csum ;;;
  base_w_l lengths 64 3 csum_bytes 0.
Definition chain_lengths_l (lengths msg : arr) (moff : Z) : L arr :=
  lengths <~ base_w_l lengths 0 64 msg moff ;;;
  wots_checksum_l lengths.

(** wotsx1.c L18-76 *)
Fixpoint leaf_chain_l (ctx : ctx_l) (n : nat) (k : Z) (wots_k : V) (dstoff : Z) (mem pk_buffer : arr) (boff : Z) (leaf_addr : arr)
  : L (arr * arr * arr) :=
  e <~ lcmp #k wots_k ;;;
  mem <~ (if e then cp mem dstoff pk_buffer boff 32 else lret mem) ;;;
  match n with
  | Datatypes.O => ([EBr true], (mem, pk_buffer, leaf_addr))
  | S n =>
      _ <~ ([EBr false], tt) ;;;
      leaf_addr <~ set_hash_addr_l leaf_addr #k ;;;
      pk_buffer <~ thash_l ctx pk_buffer boff pk_buffer boff 1 leaf_addr ;;;
      leaf_chain_l ctx n (k + 1) wots_k dstoff mem pk_buffer boff leaf_addr
  end.
Definition wots_gen_leafx1_l (ctx : ctx_l) (sigoff : Z) (sign_leaf : V) (steps : arr)
    (dest : arr) (doff leaf_idx : Z) (mem : arr) (st : arr * arr) : L (arr * arr * (arr * arr)) :=
  let '(leaf_addr, pk_addr) := st in
  e <~ lcmp #leaf_idx sign_leaf ;;;
  let wots_k_mask := if e then #0 else #(2 ^ 32 - 1) in
  leaf_addr <~ set_keypair_addr_l leaf_addr #leaf_idx ;;;
  pk_addr <~ set_keypair_addr_l pk_addr #leaf_idx ;;;
  '(mem, pk_buffer, leaf_addr) <~
    lfor 67 (fun i '(mem, pk_buffer, leaf_addr) =>
      s <~ rd steps i ;;;
      let wots_k := bi O Or s wots_k_mask in
      leaf_addr <~ set_chain_addr_l leaf_addr #i ;;;
      leaf_addr <~ set_hash_addr_l leaf_addr #0 ;;;
      leaf_addr <~ set_type_l leaf_addr ADDR_WOTSPRF ;;;
      pk_buffer <~ prf_addr_l ctx pk_buffer (i * 32) leaf_addr ;;;
      leaf_addr <~ set_type_l leaf_addr ADDR_WOTS ;;;
      leaf_chain_l ctx 15 0 wots_k (sigoff + i * 32) mem pk_buffer (i * 32) leaf_addr)
      (mem, loc 2144, leaf_addr) ;;;
  dest <~ thash_l ctx dest doff pk_buffer 0 67 pk_addr ;;;
  lret (dest, mem, (leaf_addr, pk_addr)).

(** utilsx1.c L24-100 *)
Section TreeHash.
Context {T : Type}.
Variable ctx : ctx_l.
Variable gen_leaf : arr -> Z -> Z -> arr -> T -> L (arr * arr * T).
Fixpoint treehash_up_l (n : nat) (h idx max_idx ioff iidx : Z) (ileaf : V) (aoff : Z) (root : arr) (roff : Z)
    (current stack tree_addr mem : arr) : L (arr * (arr * arr) + Z * (arr * arr * arr)) :=
  match n with
  | Datatypes.O =>
      _ <~ ([EBr true], tt) ;;;
      root <~ cp root roff current 32 32 ;;; lret (inl (root, (tree_addr, mem)))
  | S n =>
      _ <~ ([EBr false], tt) ;;;
      e <~ lcmp (bi O Xor #iidx ileaf) #1 ;;;
      mem <~ (if e then cp mem (aoff + h * 32) current 32 32 else lret mem) ;;;
      lif ((Z.land iidx 1 =? 0) && (idx <? max_idx))
        (lret (inr (h, (current, tree_addr, mem))))
        (let ioff := Z.shiftr ioff 1 in
         tree_addr <~ set_tree_height_l tree_addr #(h + 1) ;;;
         tree_addr <~ set_tree_index_l tree_addr #(u32 (iidx / 2 + ioff)) ;;;
         current <~ cp current 0 stack (h * 32) 32 ;;;
         current <~ thash_l ctx current 32 current 0 2 tree_addr ;;;
         treehash_up_l n (h + 1) idx max_idx ioff (Z.shiftr iidx 1) (un O (Shr 1) ileaf) aoff
                       root roff current stack tree_addr mem)
  end.
Fixpoint treehash_loop_l (fuel : nat) (idx : Z) (leaf_idx : V) (idx_offset tree_height aoff : Z) (root : arr) (roff : Z)
    (stack tree_addr mem : arr) (st : T) : L (arr * arr * arr * T) :=
  match fuel with
  | Datatypes.O => lret (root, tree_addr, mem, st)
  | S fuel =>
      let max_idx := u32 (Z.shiftl 1 tree_height - 1) in
      '(current, mem, st) <~ gen_leaf (loc 64) 32 (u32 (idx + idx_offset)) mem st ;;;
      r <~ treehash_up_l (Z.to_nat tree_height) 0 idx max_idx idx_offset idx leaf_idx aoff
                         root roff current stack tree_addr mem ;;;
      match r with
      | inl (root, (tree_addr, mem)) => lret (root, tree_addr, mem, st)
      | inr (h, (current, tree_addr, mem)) =>
          stack <~ cp stack (h * 32) current 32 32 ;;;
          treehash_loop_l fuel (u32 (idx + 1)) leaf_idx idx_offset tree_height aoff root roff
                          stack tree_addr mem st
      end
  end.
Definition treehashx1_l (root : arr) (roff aoff : Z) (leaf_idx : V) (idx_offset tree_height : Z) (tree_addr mem : arr) (st : T) :=
  treehash_loop_l (Z.to_nat (2 ^ tree_height)) 0 leaf_idx idx_offset tree_height aoff root roff
                  (loc (tree_height * 32)) tree_addr mem st.
End TreeHash.

(** merkle.c L18-42, L45-59; the memset of the addresses touches 32 bytes each *)
Definition zaddr : arr := vzeros O 32.
Definition merkle_sign_l (ctx : ctx_l) (mem : arr) (off : Z) (root : arr) (roff : Z)
    (wots_addr tree_addr : arr) (idx_leaf : V) : L (arr * arr * arr) :=
  steps <~ chain_lengths_l (locw 67) root roff ;;;
  tree_addr <~ set_type_l tree_addr ADDR_HASHTREE ;;;
  pk_addr <~ set_type_l zaddr ADDR_WOTSPK ;;;
  leaf_addr <~ copy_subtree_addr_l zaddr wots_addr ;;;
  pk_addr <~ copy_subtree_addr_l pk_addr wots_addr ;;;
  '(root, tree_addr, mem, _) <~
    treehashx1_l ctx (wots_gen_leafx1_l ctx off idx_leaf steps) root roff (off + 2144) idx_leaf 0 4
                 tree_addr mem (leaf_addr, pk_addr) ;;;
  lret (mem, root, tree_addr).
Definition merkle_gen_root_l (ctx : ctx_l) (root : arr) (roff : Z) : L arr :=
  top_tree_addr <~ set_layer_addr_l zaddr #16 ;;;
  wots_addr <~ set_layer_addr_l zaddr #16 ;;;
  '(_, root, _) <~ merkle_sign_l ctx (loc 2272) 0 root roff wots_addr top_tree_addr #(2 ^ 32 - 1) ;;;
  lret root.

(** fors.c L49-60, L28-42, L66-109 *)
Definition message_to_indices_l (indices m : arr) : L arr :=
  '(offset, indices) <~
    lfor 35 (fun i '(offset, indices) =>
      indices <~ wr indices i #0 ;;;
      lfor 9 (fun j '(offset, indices) =>
        b <~ rd m (Z.shiftr offset 3) ;;;
        x <~ rd indices i ;;;
        let bit := bi O And (un O (Shr (Z.land (Z.lnot offset) 7)) b) #1 in
        indices <~ wr indices i (bi O Xor x (un O (Shl (9 - 1 - j)) bit)) ;;;
        lret (offset + 1, indices)) (offset, indices)) (0, indices) ;;;
  lret indices.
Definition fors_gen_leafx1_l (ctx : ctx_l) (leaf : arr) (loff addr_idx : Z) (mem fors_leaf_addr : arr) : L (arr * arr * arr) :=
  a <~ set_tree_index_l fors_leaf_addr #addr_idx ;;;
  a <~ set_type_l a ADDR_FORSPRF ;;;
  leaf <~ prf_addr_l ctx leaf loff a ;;;
  a <~ set_type_l a ADDR_FORSTREE ;;;
  leaf <~ thash_l ctx leaf loff leaf loff 1 a ;;;
  lret (leaf, mem, a).
Definition fors_sign_l (ctx : ctx_l) (mem : arr) (off : Z) (pk m fors_addr : arr) : L (arr * arr) :=
  fors_tree_addr <~ copy_keypair_addr_l zaddr fors_addr ;;;
  fors_leaf_addr <~ copy_keypair_addr_l zaddr fors_addr ;;;
  fors_pk_addr <~ copy_keypair_addr_l zaddr fors_addr ;;;
  fors_pk_addr <~ set_type_l fors_pk_addr ADDR_FORSPK ;;;
  indices <~ message_to_indices_l (locw 35) m ;;;
  '(mem, _, roots, _, _) <~
    lfor 35 (fun i '(mem, off, roots, a, fors_leaf_addr) =>
      let idx_offset := i * 512 in
      x <~ rd indices i ;;;
      a <~ set_tree_height_l a #0 ;;;
      a <~ set_tree_index_l a (un O (Wrap 32) (bi O Add x #idx_offset)) ;;;
      a <~ set_type_l a ADDR_FORSPRF ;;;
      mem <~ prf_addr_l ctx mem off a ;;;
      a <~ set_type_l a ADDR_FORSTREE ;;;
      let off := off + 32 in
      '(roots, a, mem, fors_leaf_addr) <~
        treehashx1_l ctx (fors_gen_leafx1_l ctx) roots (i * 32) off x idx_offset 9 a mem fors_leaf_addr ;;;
      lret (mem, off + 32 * 9, roots, a, fors_leaf_addr))
      (mem, off, loc 1120, fors_tree_addr, fors_leaf_addr) ;;;
  pk <~ thash_l ctx pk 0 roots 0 35 fors_pk_addr ;;;
  lret (mem, pk).

(** sign.c L50-75, L143-156, L96-163 *)
Definition seed_keypair_l (pk sk seed : arr) : L (Z * arr * arr) :=
  sk <~ cp sk 0 seed 0 96 ;;;
  pk <~ cp pk 0 sk 64 32 ;;;
  ps <~ cp (loc 32) 0 pk 0 32 ;;;
  ss <~ cp (loc 32) 0 sk 0 32 ;;;
  sk <~ merkle_gen_root_l (ps, ss) sk 96 ;;;
  pk <~ cp pk 32 sk 96 32 ;;;
  lret (0, pk, sk).
Definition sign_layer_l (ctx : ctx_l) (i : Z) (s : arr * Z * arr * arr * arr * V * V) : L (arr * Z * arr * arr * arr * V * V) :=
  let '(mem, off, root, wots_addr, tree_addr, tree, idx_leaf) := s in
  tree_addr <~ set_layer_addr_l tree_addr #i ;;;
  tree_addr <~ set_tree_addr_l tree_addr tree ;;;
  wots_addr <~ copy_subtree_addr_l wots_addr tree_addr ;;;
  wots_addr <~ set_keypair_addr_l wots_addr idx_leaf ;;;
  '(mem, root, tree_addr) <~ merkle_sign_l ctx mem off root 0 wots_addr tree_addr idx_leaf ;;;
  lret (mem, off + (2144 + 4 * 32), root, wots_addr, tree_addr,
       un O (Shr 4) tree, un O (Wrap 32) (bi O And tree #(Z.shiftl 1 4 - 1))).
(** [rc] and [bs]: return code of randombytes and the 32 bytes it left *)
Definition sign_signature_l (rc : Z) (bs : arr) (mem : arr) (so siglen mo mlen : Z) (sk : arr) : L (Z * Z * arr) :=
  ss <~ cp (loc 32) 0 sk 0 32 ;;;
  ps <~ cp (loc 32) 0 sk 64 32 ;;;
  let ctx := (ps, ss) in
  wots_addr <~ set_type_l zaddr ADDR_WOTS ;;;
  tree_addr <~ set_type_l zaddr ADDR_HASHTREE ;;;
  optrand <~ cp (loc 32) 0 bs 0 (zlen bs) ;;;
  lif (negb (rc =? 0)) (lret (-1, siglen, mem)) (
  mem <~ gen_message_random_l mem so sk 32 optrand mo mlen ;;;
  '(mhash, tree, idx_leaf) <~ hash_message_l (loc 40) mem so sk 64 mo mlen ;;;
  let off := so + 32 in
  wots_addr <~ set_tree_addr_l wots_addr tree ;;;
  wots_addr <~ set_keypair_addr_l wots_addr idx_leaf ;;;
  '(mem, root) <~ fors_sign_l ctx mem off (loc 32) mhash wots_addr ;;;
  let off := off + 11200 in
  '(mem, _, _, _, _, _, _) <~
    lfor 17 (sign_layer_l ctx) (mem, off, root, wots_addr, tree_addr, tree, idx_leaf) ;;;
  lret (0, SPX_BYTES, mem)).
End Prog.
