(** * C80, C81: the /dev/urandom random source: bytes only after enough entropy, and what happens to its descriptors. *)
From Coq Require Import ZifyBool ZifyNat.
From Verif Require Import Base Random RandomDev RandomDevSpec RandomDevProofs.
Local Open Scope Z_scope.

(** what is in the caller's buffer after the calls [tr]: the bytes the system stored, then the old contents *)
Definition filled (old : list Z) (n : Z) (tr : list event) (new : list Z) : Prop :=
  zlen (got tr) <= n /\ new = got tr ++ slice old (zlen (got tr)) (zlen old - zlen (got tr)).

(** Zero is returned only if all n bytes came from the device and the system had reported 128 bits of entropy
    before; in every outcome (failed, still waiting) the buffer holds what was read so far, nothing was read before
    the report, and no byte behind the n requested ones was written. *)
Theorem C80_bytes_and_entropy : forall fuel n s, 0 <= n <= zlen (buf s) -> held Random (log s) = 0 ->
  match randombytes_dev fuel n s with
  | Fin c s' => (c = 0 \/ c = -1) /\ exists tr, log s' = log s ++ tr /\ guarded tr /\ filled (buf s) n tr (buf s') /\ (c = 0 -> zlen (got tr) = n /\ Exists enough tr)
  | Wait s' | Bad s' => exists tr, log s' = log s ++ tr /\ guarded tr /\ filled (buf s) n tr (buf s')
  end.
Proof.
  intros fuel n s Hn H0. pose proof (dev_ok fuel n s Hn H0) as D. unfold sat in D. destruct (randombytes_dev fuel n s) as [c s'|s'|s'].
  - destruct D as (tr & (L & G & Hle & B) & _ & HC). split; [destruct HC as [[h _]|[h _]]; [left|right]; exact h|]. exists tr. split; [exact L|]. split; [exact G|]. split; [split; assumption|]. intros E. destruct HC as [(_ & A & X & _)|(h & _)]; [split; assumption|congruence].
  - destruct D as (tr & L & G & Hle & B). exists tr. repeat (split; try assumption).
  - destruct D as ((tr & L & G & Hle & B) & _). exists tr. repeat (split; try assumption).
Qed.
Print Assumptions C80_bytes_and_entropy.

(** A successful call gives back every descriptor it took. *)
Theorem C81_success_closes_all_partial : forall fuel n s s', 0 <= n <= zlen (buf s) -> held Random (log s) = 0 ->
  randombytes_dev fuel n s = Fin 0 s' -> forall f, held f (log s') = held f (log s).
Proof.
  intros fuel n s s' Hn H0 E. pose proof (dev_ok fuel n s Hn H0) as D. unfold sat in D. rewrite E in D. destruct D as (tr & _ & _ & [(_ & _ & _ & HF)|(h & _)]); [exact HF|lia].
Qed.
Print Assumptions C81_success_closes_all_partial.

(** A failed call keeps the descriptor of /dev/urandom, unless the device could not be opened at all. *)
Theorem C81_failure_keeps_descriptor_refuted : forall fuel n s c s', 0 <= n <= zlen (buf s) -> held Random (log s) = 0 ->
  randombytes_dev fuel n s = Fin c s' -> c <> 0 ->
  held Urandom (log s') = held Urandom (log s) + 1 \/ exists l x, log s' = log s ++ l ++ [(Open Urandom, Fail x)].
Proof.
  intros fuel n s c s' Hn H0 E Hc. pose proof (dev_ok fuel n s Hn H0) as D. unfold sat in D. rewrite E in D. destruct D as (tr & (L & _) & _ & [(h & _)|(_ & [h|[(l & x & ET) _]])]); [congruence|left; exact h|right]. exists l, x. rewrite L, ET. reflexivity.
Qed.
Print Assumptions C81_failure_keeps_descriptor_refuted.

(** So a process that goes on after errors loses one descriptor with every failed call: after any sequence of calls in
    which the device could always be opened it holds one more for each non-zero return code. *)
Definition failures (cs : list Z) : Z := zlen (filter (fun c => negb (c =? 0)) cs).
Lemma calls_ok fuel : forall ns s cs s', (forall n, In n ns -> 0 <= n <= zlen (buf s)) -> held Random (log s) = 0 -> calls fuel ns s = Fin cs s' ->
  (exists t, log s' = log s ++ t) /\ ((forall x, ~ In (Open Urandom, Fail x) (log s')) -> held Urandom (log s') = held Urandom (log s) + failures cs).
Proof.
  induction ns as [|n ns IH]; intros s cs s' Hn H0 E.
  - cbn [calls] in E. injection E as <- <-. change (failures []) with 0. split; [exists []; symmetry; apply app_nil_r|lia].
  - cbn [calls] in E. unfold wbind in E. pose proof (dev_ok fuel n s (Hn n (or_introl eq_refl)) H0) as D. unfold sat in D. destruct (randombytes_dev fuel n s) as [c s1|s1|s1]; try discriminate.
    destruct (calls fuel ns s1) as [cs1 s2|s2|s2] eqn:E2; try discriminate. injection E as <- <-. destruct D as (tr & (L & _ & Hle & B) & R1 & HC).
    assert (LB: zlen (buf s1) = zlen (buf s)). { rewrite B, zlen_app. pose proof (zlen_nonneg (got tr)). pose proof (Hn n (or_introl eq_refl)). rewrite zlen_slice by lia. lia. }
    destruct (IH s1 cs1 s2) as ((t & L2) & HA); [intros m Hm; rewrite LB; apply Hn; right; exact Hm|exact R1|exact E2|].
    split; [exists (tr ++ t); rewrite L2, L, app_assoc; reflexivity|]. intros NF. rewrite (HA NF). unfold failures. cbn [filter].
    destruct HC as [(-> & _ & _ & HF)|(-> & [HU|[(l & x & ->) _]])]; cbn [Z.eqb negb].
    + rewrite HF. lia.
    + rewrite HU, zlen_cons. lia.
    + exfalso. apply (NF x). rewrite L2, L. apply in_or_app. left. apply in_or_app. right. apply in_or_app. right. left. reflexivity.
Qed.
Theorem C81_descriptors_accumulate : forall fuel ns s cs s', (forall n, In n ns -> 0 <= n <= zlen (buf s)) -> held Random (log s) = 0 ->
  calls fuel ns s = Fin cs s' -> (forall x, ~ In (Open Urandom, Fail x) (log s')) ->
  held Urandom (log s') = held Urandom (log s) + failures cs.
Proof. intros fuel ns s cs s' Hn H0 E. exact (proj2 (calls_ok fuel ns s cs s' Hn H0 E)). Qed.
Print Assumptions C81_descriptors_accumulate.

(** The only undefined behaviour is a second fclose of the /proc file, after an interrupted first one. *)
Theorem C81_only_undefined_partial : forall fuel n s s', 0 <= n <= zlen (buf s) -> held Random (log s) = 0 -> randombytes_dev fuel n s = Bad s' ->
  errno s' = EINTR /\ exists l x, log s' = l ++ [(Close Proc, Fail x)].
Proof. intros fuel n s s' Hn H0 E. pose proof (dev_ok fuel n s Hn H0) as D. unfold sat in D. rewrite E in D. exact (proj2 D). Qed.
Print Assumptions C81_only_undefined_partial.
(** ... and it happens: on a system where the ioctl is not supported, for every request and every buffer. *)
Definition start (b : list Z) (rs : list reply) : st := {| errno := 0; buf := b; log := []; replies := rs |}.
Theorem C81_interrupted_fclose_refuted : forall fuel n b, exists s', 
  randombytes_dev (S fuel) n (start b [Num 3; Fail (Some ENOTTY); Num 4; Num 5; Num 1; Num 200; Num 0; Fail (Some EINTR)]) = Bad s'.
Proof.
  intros fuel n b. exists {| errno := EINTR; buf := b; log := [(Open Urandom, Num 3); (Ioctl, Fail (Some ENOTTY)); (Open Proc, Num 4); (Open Random, Num 5); (Poll, Num 1); (Scanf, Num 200); (Close Random, Num 0); (Close Proc, Fail (Some EINTR))]; replies := [] |}. reflexivity.
Qed.
Print Assumptions C81_interrupted_fclose_refuted.

(** An interrupted close of /dev/random is repeated although the descriptor has been given back: the second close names
    a descriptor that the function does not hold (in a threaded program it may meanwhile be another thread's file), and
    the call succeeds. *)
Theorem C81_interrupted_close_refuted : forall fuel bs, 0 < zlen bs < 2 ^ 63 -> exists s' pre r post,
  randombytes_dev (S (S fuel)) (zlen bs) (start bs [Num 3; Num 0; Num 4; Num 1; Num 200; Fail (Some EINTR); Num 0; Bytes bs; Num 0]) = Fin 0 s' /\
  log s' = pre ++ (Close Random, r) :: post /\ held Random pre = 0.
Proof.
  intros fuel bs Hb. 
  assert (RL: forall f s, buf s = bs -> log s = [(Open Urandom, Num 3); (Ioctl, Num 0); (Open Random, Num 4); (Poll, Num 1); (Ioctl, Num 200); (Close Random, Fail (Some EINTR)); (Close Random, Num 0)] -> replies s = [Bytes bs; Num 0] ->
    exists s1 t, read_loop (S f) 0 (zlen bs) s = Fin 0 s1 /\ log s1 = log s ++ t /\ replies s1 = [Num 0]).
  { intros f s EB EL ER. cbn [read_loop]. destruct (Z.leb_spec (zlen bs) 0); [lia|]. unfold SSIZE_MAX. destruct (Z.leb_spec (zlen bs) (2 ^ 63 - 1)); [|lia]. unfold wbind, read_w, syscall. rewrite ER. cbv beta iota zeta. cbn [stored buf]. rewrite Z.min_id, (slice_all bs) by reflexivity.
    rewrite EB, copy_ok by lia. cbv beta iota zeta. cbn [stored]. rewrite ?Z.min_id, ?(slice_all bs) by reflexivity. rewrite Z.sub_diag, Z.add_0_l. destruct f; cbn [read_loop Z.leb Z.compare wret]; eexists _, _; (split; [reflexivity|]); cbn [log replies]; (split; reflexivity). }
  match goal with |- exists s' pre r post, randombytes_dev ?F ?n ?s = _ /\ _ /\ _ => set (s0 := s) end.
  set (s1 := {| errno := EINTR; buf := bs; log := [(Open Urandom, Num 3); (Ioctl, Num 0); (Open Random, Num 4); (Poll, Num 1); (Ioctl, Num 200); (Close Random, Fail (Some EINTR)); (Close Random, Num 0)]; replies := [Bytes bs; Num 0] |}).
  destruct (RL (S fuel) s1 eq_refl eq_refl eq_refl) as (s2 & t & E & L & R).
  assert (EX: randombytes_dev (S (S fuel)) (zlen bs) s0 = (wbind (read_loop (S (S fuel)) 0 (zlen bs)) (fun rc => if negb (rc =? 0) then wret rc else wbind (syscall (Close Urandom)) (fun _ => wret 0))) s1) by reflexivity.
  rewrite EX. unfold wbind at 1. rewrite E. cbn [Z.eqb negb]. unfold wbind, syscall. rewrite R. cbv beta iota. unfold wret.
  eexists _, [(Open Urandom, Num 3); (Ioctl, Num 0); (Open Random, Num 4); (Poll, Num 1); (Ioctl, Num 200); (Close Random, Fail (Some EINTR))], (Num 0), (t ++ [(Close Urandom, Num 0)]).
  split; [reflexivity|]. cbn [log]. split; [rewrite L; subst s1; cbn [log]; rewrite <- app_assoc; reflexivity|reflexivity].
Qed.
Print Assumptions C81_interrupted_close_refuted.

(** A /proc file that yields no number makes the call fail; but after an interrupted poll the stale errno makes it ask
    again and again: however many further attempts find nothing, the call has not returned. *)
Lemma proc_spins : forall fuel k ent b l, exists s', read_entropy_proc fuel ent {| errno := EINTR; buf := b; log := l; replies := repeat (Fail None) k |} = Wait s'.
Proof.
  induction fuel as [|fuel IH]; intros k ent b l; [eexists; reflexivity|]. cbn [read_entropy_proc]. unfold wbind, syscall. destruct k as [|k]; cbn [repeat replies]; [eexists; reflexivity|]. cbv beta iota. unfold get_errno. cbv beta iota. cbn [errno]. change (EINTR =? EINTR) with true. cbv iota. apply IH.
Qed.
Theorem C81_stale_errno_refuted : 
  (forall fuel n b k, exists s', randombytes_dev (S fuel) n (start b ([Num 3; Fail (Some ENOTTY); Num 4; Num 5; Num 1; Fail None; Num 0; Num 0] ++ repeat (Fail None) k)) = Fin (-1) s') /\
  (forall fuel n b k, exists s', randombytes_dev fuel n (start b ([Num 3; Fail (Some ENOTTY); Num 4; Num 5; Fail (Some EINTR); Num 1] ++ repeat (Fail None) k)) = Wait s').
Proof.
  split.
  { intros fuel n b k. exists {| errno := ENOTTY; buf := b; log := [(Open Urandom, Num 3); (Ioctl, Fail (Some ENOTTY)); (Open Proc, Num 4); (Open Random, Num 5); (Poll, Num 1); (Scanf, Fail None); (Close Random, Num 0); (Close Proc, Num 0)]; replies := repeat (Fail None) k |}. reflexivity. }
  intros [|[|fuel]] n b k; [exists (start b ([Num 3; Fail (Some ENOTTY); Num 4; Num 5; Fail (Some EINTR); Num 1] ++ repeat (Fail None) k)); reflexivity| |].
  { exists {| errno := EINTR; buf := b; log := [(Open Urandom, Num 3); (Ioctl, Fail (Some ENOTTY)); (Open Proc, Num 4); (Open Random, Num 5); (Poll, Fail (Some EINTR))]; replies := Num 1 :: repeat (Fail None) k |}. reflexivity. }
  set (s1 := {| errno := EINTR; buf := b; log := [(Open Urandom, Num 3); (Ioctl, Fail (Some ENOTTY)); (Open Proc, Num 4); (Open Random, Num 5); (Poll, Fail (Some EINTR)); (Poll, Num 1)]; replies := repeat (Fail None) k |}).
  destruct (proc_spins (S fuel) k 0 b (log s1)) as (s' & E). exists s'. change (read_entropy_proc (S fuel) 0 s1 = Wait s') in E.
  unfold randombytes_dev, wait_for_entropy, wait_rest. cbn [open_w poll_loop]. cbv - [read_entropy_proc open_w poll_loop close_loop read_loop repeat] in E |- *. rewrite E. reflexivity.
Qed.
Print Assumptions C81_stale_errno_refuted.

(** the hypotheses are met by a fresh process, and a plain run looks like this *)
Example C80_met : 0 <= 4 <= zlen (buf (start [9;9;9;9;9] [])) /\ held Random (log (start [9;9;9;9;9] [])) = 0.
Proof. split; [vm_compute; split; congruence|reflexivity]. Qed.
Example C80_run : exists s', randombytes_dev 9 4 (start [9;9;9;9;9] [Fail (Some EINTR); Num 3; Num 20; Num 4; Num 1; Num 60; Num 1; Num 130; Num 0; Bytes [1;2]; Fail (Some EINTR); Bytes [3;4;5;6]; Num 0]) = Fin 0 s' /\
  buf s' = [1;2;3;4;9] /\ held Urandom (log s') = 0.
Proof. eexists. split; [vm_compute; reflexivity|]. split; reflexivity. Qed.
Example C81_two_failures : exists s', calls 9 [4; 4] (start [9;9;9;9;9] [Num 3; Num 128; Fail (Some 5); Num 4; Num 128; Bytes [1]; Fail (Some 5)]) = Fin [-1; -1] s' /\ held Urandom (log s') = 2.
Proof. eexists. split; [vm_compute; reflexivity|]. reflexivity. Qed.
