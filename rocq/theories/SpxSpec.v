(** SLH-DSA as specified in FIPS 205 (sections 4 to 9), for the parameter set
    SLH-DSA-SHAKE-256f: n = 32, h = 68, d = 17, h' = 4, a = 9, k = 35, lg_w = 4,
    m = 49.  SHAKE256 is the parameter [H] (input bytes, number of output bytes);
    nothing else is assumed about it here.  This file does not mention the C code. *)
From Verif Require Import Base Sha512Spec.
Local Open Scope Z_scope.

Definition zseq (n : nat) : list Z := map Z.of_nat (seq 0 n).

(** FIPS 205 algorithm 4: [base_2b(X, b, out_len)], the first [out_len] groups of
    [b] bits of the byte string [X], most significant bit first. *)
Definition base_2b (X : list Z) (b : Z) (n : nat) : list Z :=
  map (fun i => (be_val X / 2 ^ (8 * zlen X - b * (i + 1))) mod 2 ^ b) (zseq n).

(** Section 4.2: the 32-byte address: layer (4 bytes), tree (12), type (4) and
    three type-specific words. *)
Definition adrs (layer tree type w1 w2 w3 : Z) : list Z :=
  be_bytes 4 layer ++ be_bytes 12 tree ++ be_bytes 4 type
    ++ be_bytes 4 w1 ++ be_bytes 4 w2 ++ be_bytes 4 w3.

Definition adrs_wots_hash l t kp chain hash := adrs l t 0 kp chain hash.
Definition adrs_wots_pk l t kp := adrs l t 1 kp 0 0.
Definition adrs_tree l t height index := adrs l t 2 0 height index.
Definition adrs_fors_tree t kp height index := adrs 0 t 3 kp height index.
Definition adrs_fors_roots t kp := adrs 0 t 4 kp 0 0.
Definition adrs_wots_prf l t kp chain := adrs l t 5 kp chain 0.
Definition adrs_fors_prf t kp index := adrs 0 t 6 kp 0 index.

(** Sum of the differences to w - 1 (algorithms 7 and 8, lines 2-4). *)
Definition csum (digits : list Z) : Z := fold_right (fun d s => (15 - d) + s) 0 digits.

(** Algorithms 7 and 8, lines 1-7: the 64 message digits and 3 checksum digits. *)
Definition wots_digits (M : list Z) : list Z :=
  let m := base_2b M 4 64 in
  m ++ base_2b (be_bytes 2 (16 * csum m)) 4 3.

(** A binary hash tree over the leaves [leaf 0], [leaf 1], ...: the node of
    height [z] and index [i] (algorithms 9 and 15). *)
Fixpoint tree_node (hash : Z -> Z -> list Z -> list Z) (leaf : Z -> list Z) (z : nat) (i : Z) : list Z :=
  match z with
  | O => leaf i
  | S z' => hash (Z.of_nat z) i (tree_node hash leaf z' (2 * i) ++ tree_node hash leaf z' (2 * i + 1))
  end.

(** Climb from the node [node] of height [z] and index [i] using the siblings in
    [auth] (algorithms 11 and 17). *)
Fixpoint climb (hash : Z -> Z -> list Z -> list Z) (n : nat) (z i : Z) (node auth : list Z) : list Z :=
  match n with
  | O => node
  | S n' =>
      let sib := slice auth 0 32 in
      let node' := hash (z + 1) (i / 2) (if Z.even i then node ++ sib else sib ++ node) in
      climb hash n' (z + 1) (i / 2) node' (slice auth 32 (zlen auth - 32))
  end.

(** The siblings along the path from leaf [i] up, [n] of them. *)
Definition auth_path (hash : Z -> Z -> list Z -> list Z) (leaf : Z -> list Z) (n : nat) (i : Z) : list Z :=
  flat_map (fun j => tree_node hash leaf j (Z.lxor (i / 2 ^ Z.of_nat j) 1)) (seq 0 n).

Section SLH.
Variable H : list Z -> Z -> list Z.
Variable pkseed : list Z.

(** Section 11.1: F, H and T_l are all SHAKE256(PK.seed || ADRS || M, 8n). *)
Definition Th (ad M : list Z) : list Z := H (pkseed ++ ad ++ M) 32.

(** Algorithm 5: [s] steps of the chaining function starting at position [i]. *)
Fixpoint chain (l t kp c : Z) (X : list Z) (i : Z) (s : nat) : list Z :=
  match s with
  | O => X
  | S s' => chain l t kp c (Th (adrs_wots_hash l t kp c i) X) (i + 1) s'
  end.

(** Algorithm 8: a WOTS+ public key from a signature and an n-byte message. *)
Definition wots_pk_of_sig (sig M : list Z) (l t kp : Z) : list Z :=
  Th (adrs_wots_pk l t kp)
     (flat_map (fun c =>
        let d := nth (Z.to_nat c) (wots_digits M) 0 in
        chain l t kp c (slice sig (32 * c) 32) d (Z.to_nat (15 - d))) (zseq 67)).

Definition xmss_hash (l t : Z) (z i : Z) (M : list Z) : list Z := Th (adrs_tree l t z i) M.

(** Algorithm 11. *)
Definition xmss_pk_of_sig (idx : Z) (sig M : list Z) (l t : Z) : list Z :=
  climb (xmss_hash l t) 4 0 idx (wots_pk_of_sig (slice sig 0 2144) M l t idx) (slice sig 2144 128).

Definition fors_hash (t kp : Z) (z i : Z) (M : list Z) : list Z := Th (adrs_fors_tree t kp z i) M.

(** Algorithm 17. *)
Definition fors_pk_of_sig (sig md : list Z) (t kp : Z) : list Z :=
  Th (adrs_fors_roots t kp)
     (flat_map (fun i =>
        let idx := i * 512 + nth (Z.to_nat i) (base_2b md 9 35) 0 in
        let s := slice sig (320 * i) 320 in
        climb (fors_hash t kp) 9 0 idx (Th (adrs_fors_tree t kp 0 idx) (slice s 0 32)) (slice s 32 288))
      (zseq 35)).

(** Algorithm 13: the root reached from a hypertree signature; [n] layers from
    layer [l] on, message [M], tree [t] and leaf [leaf] at layer [l]. *)
Fixpoint ht_root_of_sig (n : nat) (l : Z) (M sig : list Z) (t leaf : Z) : list Z :=
  match n with
  | O => M
  | S n' =>
      ht_root_of_sig n' (l + 1) (xmss_pk_of_sig leaf (slice sig 0 2272) M l t)
        (slice sig 2272 (zlen sig - 2272)) (t / 16) (t mod 16)
  end.

(** Section 9.2, lines 6-10 of algorithm 19: message digest, tree and leaf. *)
Definition digest_md (dg : list Z) : list Z := slice dg 0 40.
Definition digest_tree (dg : list Z) : Z := be_val (slice dg 40 8) mod 2 ^ 64.
Definition digest_leaf (dg : list Z) : Z := be_val (slice dg 48 1) mod 2 ^ 4.
Definition H_msg (R pkroot M : list Z) : list Z := H (R ++ pkseed ++ pkroot ++ M) 49.

(** Algorithm 20: slh_verify_internal. *)
Definition slh_verify_root (M sig pkroot : list Z) : list Z :=
  let dg := H_msg (slice sig 0 32) pkroot M in
  let t := digest_tree dg in
  let leaf := digest_leaf dg in
  let pkfors := fors_pk_of_sig (slice sig 32 11200) (digest_md dg) t leaf in
  ht_root_of_sig 17 0 pkfors (slice sig 11232 38624) t leaf.

Section Secret.
Variable skseed : list Z.

(** Section 11.1: PRF(PK.seed, SK.seed, ADRS) = SHAKE256(PK.seed || ADRS || SK.seed, 8n). *)
Definition PRF (ad : list Z) : list Z := H (pkseed ++ ad ++ skseed) 32.

Definition wots_sk (l t kp c : Z) : list Z := PRF (adrs_wots_prf l t kp c).

(** Algorithm 6. *)
Definition wots_pk (l t kp : Z) : list Z :=
  Th (adrs_wots_pk l t kp) (flat_map (fun c => chain l t kp c (wots_sk l t kp c) 0 15) (zseq 67)).

(** Algorithm 7. *)
Definition wots_sign (M : list Z) (l t kp : Z) : list Z :=
  flat_map (fun c => chain l t kp c (wots_sk l t kp c) 0 (Z.to_nat (nth (Z.to_nat c) (wots_digits M) 0)))
           (zseq 67).

(** Algorithm 9. *)
Definition xmss_node (l t : Z) (z : nat) (i : Z) : list Z :=
  tree_node (xmss_hash l t) (wots_pk l t) z i.

(** Algorithm 10. *)
Definition xmss_sign (M : list Z) (idx l t : Z) : list Z :=
  wots_sign M l t idx ++ auth_path (xmss_hash l t) (wots_pk l t) 4 idx.

(** Algorithm 12. *)
Fixpoint ht_sign (n : nat) (l : Z) (M : list Z) (t leaf : Z) : list Z :=
  match n with
  | O => []
  | S n' =>
      let s := xmss_sign M leaf l t in
      s ++ ht_sign n' (l + 1) (xmss_pk_of_sig leaf s M l t) (t / 16) (t mod 16)
  end.

(** Algorithm 14. *)
Definition fors_sk (t kp idx : Z) : list Z := PRF (adrs_fors_prf t kp idx).
Definition fors_leaf (t kp idx : Z) : list Z := Th (adrs_fors_tree t kp 0 idx) (fors_sk t kp idx).

(** Algorithm 16. *)
Definition fors_sign (md : list Z) (t kp : Z) : list Z :=
  flat_map (fun i =>
      let idx := i * 512 + nth (Z.to_nat i) (base_2b md 9 35) 0 in
      fors_sk t kp idx ++ auth_path (fors_hash t kp) (fors_leaf t kp) 9 idx)
    (zseq 35).

(** Algorithm 18, lines 2-3: PK.root is the root of the only tree of layer 16. *)
Definition slh_root : list Z := xmss_node 16 0 4 0.

(** Algorithm 19: slh_sign_internal with randomizer [addrnd]. *)
Definition slh_sign (M skprf pkroot addrnd : list Z) : list Z :=
  let R := H (skprf ++ addrnd ++ M) 32 in
  let dg := H_msg R pkroot M in
  let md := digest_md dg in
  let t := digest_tree dg in
  let leaf := digest_leaf dg in
  let sf := fors_sign md t leaf in
  R ++ sf ++ ht_sign 17 0 (fors_pk_of_sig sf md t leaf) t leaf.
End Secret.
End SLH.

(** Key and signature formats (section 9.1): SK = SK.seed || SK.prf || PK.seed ||
    PK.root and PK = PK.seed || PK.root. *)
Definition slh_keygen (H : list Z -> Z -> list Z) (seed : list Z) : list Z * list Z :=
  let skseed := slice seed 0 32 in
  let pkseed := slice seed 64 32 in
  let root := slh_root H pkseed skseed in
  (pkseed ++ root, seed ++ root).

Definition slh_sign_sk (H : list Z -> Z -> list Z) (M sk addrnd : list Z) : list Z :=
  slh_sign H (slice sk 64 32) (slice sk 0 32) M (slice sk 32 32) (slice sk 96 32) addrnd.

Definition slh_verify (H : list Z -> Z -> list Z) (M sig pk : list Z) : Prop :=
  zlen sig = 49856 /\ slh_verify_root H (slice pk 0 32) M sig (slice pk 32 32) = slice pk 32 32.
