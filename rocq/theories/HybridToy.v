(** A concrete component instance, used only to show that the hypotheses of the
    generic theorems about the hybrid API are satisfiable and to run the model on
    concrete non-trivial data.  It models no file of the repository: the
    "signatures" are key material followed by a copy of the message. *)
From Verif Require Import Base Hybrid HybridNF HybridSpec HybridProofs HybridProofs2.

Definition fill (n : Z) (l : list Z) : list Z := slice (l ++ zeros n) 0 n.
Definition beq (a b : list Z) : bool := if list_eq_dec Z.eq_dec a b then true else false.

Definition toy : comps := {|
  ed_keypair s := (0, fill 32 s, fill 32 s ++ zeros 32);
  dil_keypair s := (0, fill 1312 s, fill 2560 s);
  spx_keypair s := (0, slice (fill 96 s) 32 64, fill 64 s ++ slice (fill 96 s) 32 64);
  ed_sign m k := {| code := 0; olen := 64 + zlen m; obytes := (fill 32 (slice k 0 32) ++ fill 32 m) ++ m |};
  dil_sign m k := {| code := 0; olen := 2420; obytes := fill 32 (slice k 0 32) ++ fill 2388 m |};
  spx_sign rb m k :=
    if fst (rb 32) =? 0
    then {| code := 0; olen := 49856; obytes := fill 64 (slice k 64 64) ++ fill 64 m ++ fill 49728 (snd (rb 32)) |}
    else {| code := -1; olen := 0; obytes := [] |};
  ed_open s k := if beq (slice s 0 64) (fill 32 k ++ fill 32 (slice s 64 (zlen s - 64)))
                 then {| code := 0; olen := zlen s - 64; obytes := slice s 64 (zlen s - 64) |}
                 else {| code := -1; olen := -1; obytes := [] |};
  dil_verify s m k := if beq (slice s 0 2420) (fill 32 (slice k 0 32) ++ fill 2388 m) then 0 else -1;
  spx_verify s m k := if beq (slice s 0 128) (fill 64 k ++ fill 64 m) then 0 else -1;
  sha3_512 x := fill 64 (slice x 36 68)
|}.

Lemma zlen_fill n l : 0 <= n -> zlen (fill n l) = n.
Proof. intros H. unfold fill. pose proof (zlen_nonneg l). rewrite zlen_slice; rewrite ?zlen_app, ?zlen_zeros; lia. Qed.
Lemma fill_id n l : zlen l = n -> fill n l = l.
Proof. intros H. unfold fill. pose proof (zlen_nonneg l). rewrite slice_app_l, slice_all by lia. reflexivity. Qed.
Lemma beq_refl a : beq a a = true.
Proof. unfold beq. destruct (list_eq_dec _ _ _); congruence. Qed.

Lemma toy_fit : comps_fit toy.
Proof.
  split; cbn -[Z.mul Z.add slice zeros]; intros.
  - split; rewrite ?zlen_app, ?zlen_fill, ?zlen_zeros by lia; reflexivity.
  - split; apply zlen_fill; lia.
  - split; rewrite ?zlen_app, ?zlen_slice, ?zlen_fill by (rewrite ?zlen_fill by lia; lia); reflexivity.
  - rewrite !zlen_app, !zlen_fill by lia. lia.
  - rewrite !zlen_app, !zlen_fill by lia. lia.
  - destruct (_ =? 0); cbn [obytes]; [|cbv; congruence]. rewrite !zlen_app, !zlen_fill by lia. lia.
  - destruct (beq _ _); cbn [obytes]; [|cbv; congruence]. rewrite zlen_slice; lia.
  - apply zlen_fill; lia.
Qed.
Lemma toy_faithful : comps_faithful toy.
Proof.
  split; cbn -[Z.mul Z.add slice zeros]; intros.
  - split; [reflexivity|]. eexists. split; [|reflexivity]. rewrite !zlen_app, !zlen_fill by lia. lia.
  - split; [reflexivity|]. rewrite !zlen_app, !zlen_fill by lia. lia.
  - destruct (_ =? 0); cbn [code olen obytes] in *; [|discriminate].
    split; [reflexivity|]. rewrite !zlen_app, !zlen_fill by lia. lia.
  - destruct (beq _ _); cbn [code olen obytes] in *; [|discriminate].
    rewrite zlen_app, H. split; [lia|]. exists [].
    rewrite slice_app_r, app_nil_r by lia. replace (64 - zlen sig) with 0 by lia. apply slice_all; lia.
Qed.
Lemma toy_complete : comps_complete toy.
Proof.
  split; cbn -[Z.mul Z.add slice zeros]; intros.
  - assert (E: zlen (fill 32 (slice (fill 32 seed ++ zeros 32) 0 32) ++ fill 32 m) = 64)
      by (rewrite ?zlen_app, ?zlen_fill by lia; lia).
    rewrite zlen_app, E, slice_app_l, (slice_app_r _ m), (slice_all _ 64) by lia.
    rewrite E, Z.sub_diag, (slice_all m) by lia.
    rewrite (slice_app_l (fill 32 seed)), (slice_all (fill 32 seed)) by (rewrite ?zlen_fill by lia; lia).
    rewrite !(fill_id 32 (fill 32 seed)) by (apply zlen_fill; lia). now rewrite beq_refl.
  - rewrite (slice_all _ 2420) by (rewrite ?zlen_app, ?zlen_fill by lia; lia).
    assert (E: slice (fill 2560 seed) 0 32 = slice (fill 1312 seed) 0 32).
    { unfold fill. rewrite !slice_slice by (pose proof (zlen_nonneg seed); rewrite ?zlen_app, ?zlen_zeros by lia; lia).
      rewrite !slice_app_l by lia. reflexivity. }
    rewrite E. now rewrite beq_refl.
  - destruct (_ =? 0); cbn [code obytes] in *; [|discriminate].
    rewrite (slice_app_r (fill 64 seed)) by (rewrite ?zlen_fill by lia; lia).
    rewrite zlen_fill, Z.sub_diag by lia.
    rewrite (slice_all (slice (fill 96 seed) 32 64)) by (rewrite zlen_slice by (rewrite ?zlen_fill by lia; lia); lia).
    rewrite app_assoc, slice_app_l, slice_all by (rewrite ?zlen_app, ?zlen_fill by lia; lia).
    now rewrite beq_refl.
  - rewrite (slice_app_r (fill 64 seed)) by (rewrite ?zlen_fill by lia; lia).
    rewrite zlen_fill, Z.sub_diag by lia. apply slice_all. rewrite zlen_slice by (rewrite ?zlen_fill by lia; lia). lia.
Qed.

(** Concrete data: a seed, a random source, a message, and what the model computes. *)
Definition toy_seed : list Z := map (fun i => (Z.of_nat i * 37 + 11) mod 256) (seq 0 160).
Definition toy_msg : list Z := [104; 101; 108; 108; 111].
Definition toy_rnd : rnd := fun n => (0, map (fun i => (Z.of_nat i * 91 + 5) mod 256) (seq 0 (Z.to_nat n))).
Definition bad_rnd : rnd := fun n => (-1, zeros n).
Definition toy_keys : list Z * list Z :=
  match keypair_seed toy (Some (zeros 1408)) (Some (zeros 4064)) (Some toy_seed) with
  | Ret (0, Some pk, Some sk) => (pk, sk) | _ => ([], []) end.
Definition toy_pk := Eval vm_compute in fst toy_keys.
Definition toy_sk := Eval vm_compute in snd toy_keys.
Lemma toy_keys_ok : keypair_seed toy (Some (zeros 1408)) (Some (zeros 4064)) (Some toy_seed)
  = Ret (0, Some toy_pk, Some toy_sk).
Proof. vm_compute. reflexivity. Qed.
Lemma toy_full_ok : exists sm l, sign_full toy toy_rnd (Some (zeros 52406)) (Some 0) (Some toy_msg) 5 (Some toy_sk)
  = Ret (0, Some sm, Some l).
Proof.
  apply sign_full_runs; [apply toy_fit|apply toy_faithful| |lia|vm_compute; congruence|vm_compute; reflexivity|..].
  - rewrite zlen_zeros; lia.
  - reflexivity.
  - reflexivity.
  - reflexivity.
Qed.
Lemma toy_compact_ok : exists sm l, sign_compact toy toy_rnd (Some (zeros 2590)) (Some 0) (Some toy_msg) 5 (Some toy_sk)
  = Ret (0, Some sm, Some l).
Proof.
  apply sign_compact_runs; [apply toy_fit|apply toy_faithful| |lia|vm_compute; congruence|vm_compute; reflexivity
    |vm_compute; reflexivity|reflexivity|..].
  - rewrite zlen_zeros; lia.
  - reflexivity.
  - reflexivity.
Qed.
