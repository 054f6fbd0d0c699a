(** Leakage: what an observer of the instruction stream and of the data addresses sees.

    Nothing in this file models a particular function of the repository; it is the vocabulary the
    instrumented programs of Ct*.v are written in.

    A program is written for an arbitrary type [V] of data values.  It can compute with them only
    through the operations of [ops] (the arithmetic and bit operations the C code uses, which are
    taken not to leak their operands), and the only way from a data value to control flow or to an
    address is [lbranch] and [lrd_at] / [lwr_at], which record what they reveal.  Loop counters,
    array indices and lengths are integers; every access records its index and every branch or
    loop test its outcome.  Which array is accessed at a given point is fixed by the program text
    (no pointer is ever chosen by data), so the index determines the address. *)
From Verif Require Import Base.

Inductive event := ERd (i : Z) | EWr (i : Z) | EBr (b : bool).

(** A computation: the events it causes, in order, and its result. *)
Definition L (A : Type) : Type := (list event * A)%type.
(** What the observer sees. *)
Definition trace {A} (x : L A) : list event := fst x.
Definition value {A} (x : L A) : A := snd x.
Definition lret {A} (a : A) : L A := ([], a).
Definition lbind {A B} (x : L A) (k : A -> L B) : L B :=
  (trace x ++ trace (k (value x)), value (k (value x))).
Notation "x <~ e ;;; k" := (lbind e (fun x => k)) (at level 61, e at next level, right associativity).
Notation "' p <~ e ;;; k" := (lbind e (fun p => k)) (at level 61, p pattern, e at next level, right associativity).

(** Operations on data.  [Wrap n] is reduction to n unsigned bits, [SWrap n] conversion to an
    n-bit two's complement integer. *)
Inductive uop := Not | Neg | Shl (c : Z) | Shr (c : Z) | Wrap (n : Z) | SWrap (n : Z).
Inductive bop := Add | Sub | Mul | And | Or | Xor.
Record ops (V : Type) := { cst : Z -> V; un : uop -> V -> V; bi : bop -> V -> V -> V; reveal : V -> Z }.
Arguments cst {V} _ _. Arguments un {V} _ _ _. Arguments bi {V} _ _ _ _. Arguments reveal {V} _ _.

(** The data of the C program: integers. *)
Definition ev1 (o : uop) (x : Z) : Z :=
  match o with
  | Not => Z.lnot x | Neg => - x | Shl c => Z.shiftl x c | Shr c => Z.shiftr x c
  | Wrap n => x mod 2 ^ n | SWrap n => (x + 2 ^ (n - 1)) mod 2 ^ n - 2 ^ (n - 1)
  end.
Definition ev2 (o : bop) (x y : Z) : Z :=
  match o with
  | Add => x + y | Sub => x - y | Mul => x * y
  | And => Z.land x y | Or => Z.lor x y | Xor => Z.lxor x y
  end.
Definition Zops : ops Z := {| cst := fun x => x; un := ev1; bi := ev2; reveal := fun x => x |}.

Section Prims.
Context {V : Type} (O : ops V).

(** Array access at a public index. *)
Definition lrd (l : list V) (i : Z) : L V := ([ERd i], nth (Z.to_nat i) l (cst O 0)).
Definition lwr (l : list V) (i : Z) (v : V) : L (list V) := ([EWr i], upd l (Z.to_nat i) v).
(** Array access at an index computed from data. *)
Definition lrd_at (l : list V) (v : V) : L V := lrd l (reveal O v).
Definition lwr_at (l : list V) (v x : V) : L (list V) := lwr l (reveal O v) x.
(** [if (v)] for a data value and for a public condition. *)
Definition lbranch (v : V) : L bool := ([EBr (negb (reveal O v =? 0))], negb (reveal O v =? 0)).
Definition lif {A} (b : bool) (x y : L A) : L A := if b then (EBr true :: trace x, value x) else (EBr false :: trace y, value y).
(** [for (i = i0; ...)] with a public number of iterations; the loop test is recorded each time. *)
Fixpoint lfrom {S} (n : nat) (i : Z) (f : Z -> S -> L S) (s : S) : L S :=
  match n with
  | Datatypes.O => ([EBr false], s)
  | Datatypes.S n' =>
      let y := f i s in
      let z := lfrom n' (i + 1) f (value y) in
      (EBr true :: trace y ++ trace z, value z)
  end.
Definition lfor {S} (n : Z) (f : Z -> S -> L S) (s : S) : L S := lfrom (Z.to_nat n) 0 f s.
(** An array of [n] zeros; [FOR(i,n) a[i] = 0]. *)
Definition vzeros (n : Z) : list V := repeat (cst O 0) (Z.to_nat n).
Definition linit (n : Z) : L (list V) := (trace (lfor n (fun i l => lwr l i (cst O 0)) []), vzeros n).
(** A whole-array copy [FOR(i,n) b[i] = a[i]] of an array of [n] elements. *)
Definition ldup (n : Z) (l : list V) : L (list V) :=
  (trace (lfor n (fun i d => v <~ lrd l i ;;; lwr d i v) l), l).
(** [FOR(i,n) dst[doff+i] = src[soff+i]] on two arrays that do not overlap. *)
Definition lcopy (dst : list V) (doff : Z) (src : list V) (soff n : Z) : L (list V) :=
  lfor n (fun i d => v <~ lrd src (soff + i) ;;; lwr d (doff + i) v) dst.
(** A pointer into an array, handed to a callee. *)
Definition lptr (l : list V) (off n : Z) : list V := slice l off n.
End Prims.

Lemma trace_bind {A B} (x : L A) (k : A -> L B) : trace (lbind x k) = trace x ++ trace (k (value x)).
Proof. reflexivity. Qed.
Lemma value_bind {A B} (x : L A) (k : A -> L B) : value (lbind x k) = value (k (value x)).
Proof. reflexivity. Qed.

Lemma trace_ret {A} (a : A) : trace (lret a) = []. Proof. reflexivity. Qed.
Lemma trace_if {A} (b : bool) (x y : L A) : trace (lif b x y) = EBr b :: trace (if b then x else y).
Proof. destruct b; reflexivity. Qed.
Lemma value_if {A} (b : bool) (x y : L A) : value (lif b x y) = value (if b then x else y).
Proof. destruct b; reflexivity. Qed.

(** ** Two runs have the same trace *)
Lemma ct_bind {A B} (x x' : L A) (k k' : A -> L B) :
  trace x = trace x' -> (forall a a', trace (k a) = trace (k' a')) -> trace (lbind x k) = trace (lbind x' k').
Proof. intros E K. unfold lbind, trace at 1 4; cbn [fst]. rewrite E. f_equal. apply K. Qed.
(** the same, when what the first part returns is known to agree *)
Lemma ct_bind_same {A B} (x x' : L A) (k k' : A -> L B) :
  trace x = trace x' -> value x = value x' -> (forall a, trace (k a) = trace (k' a)) -> trace (lbind x k) = trace (lbind x' k').
Proof. intros E F K. unfold lbind, trace at 1 4; cbn [fst]. rewrite E, F. f_equal. apply K. Qed.
Lemma ct_from {S} n i (f f' : Z -> S -> L S) s s' :
  (forall j a a', trace (f j a) = trace (f' j a')) -> trace (lfrom n i f s) = trace (lfrom n i f' s').
Proof.
  intros K; revert i s s'. induction n as [|n IH]; intros; [reflexivity|].
  cbn [lfrom]. cbv zeta. unfold trace at 1 4; cbn [fst]. f_equal. rewrite (K i s s'). f_equal. apply IH.
Qed.
Lemma ct_for {S} n (f f' : Z -> S -> L S) s s' :
  (forall j a a', trace (f j a) = trace (f' j a')) -> trace (lfor n f s) = trace (lfor n f' s').
Proof. apply ct_from. Qed.
Lemma ct_if {A} b (x x' y y' : L A) : trace x = trace x' -> trace y = trace y' -> trace (lif b x y) = trace (lif b x' y').
Proof. destruct b; intros E F; unfold lif, trace in *; cbn [fst]; congruence. Qed.
Lemma ct_dup {V} (O : ops V) n l l' : trace (ldup O n l) = trace (ldup O n l').
Proof. unfold ldup. cbn [trace fst]. apply ct_for; intros. apply ct_bind; reflexivity. Qed.
Lemma ct_copy {V} (O : ops V) d a s b n d' s' : trace (lcopy O d a s b n) = trace (lcopy O d' a s' b n).
Proof. apply ct_for; intros. apply ct_bind; reflexivity. Qed.

Create HintDb ct discriminated.
#[global] Hint Constants Opaque : ct.
#[global] Hint Resolve ct_dup ct_copy : ct.
(** Proves that a program whose control flow and indices do not involve data has one trace. *)
Ltac ct :=
  repeat match goal with
  | |- forall _, _ => intro
  | a : (_ * _)%type |- _ => destruct a
  | |- trace (match ?x with (_, _) => _ end) = _ => destruct x
  | |- _ = trace (match ?x with (_, _) => _ end) => destruct x
  | |- trace (lret _) = trace (lret _) => reflexivity
  | |- trace (lrd _ _ _) = trace (lrd _ _ _) => reflexivity
  | |- trace (lwr _ _ _) = trace (lwr _ _ _) => reflexivity
  | |- trace (linit _ _) = trace (linit _ _) => reflexivity
  | |- trace (lbind _ _) = trace (lbind _ _) => apply ct_bind
  | |- trace (lfor _ _ _) = trace (lfor _ _ _) => apply ct_for
  | |- trace (lfrom _ _ _ _) = trace (lfrom _ _ _ _) => apply ct_from
  | |- trace (lif _ _ _) = trace (lif _ _ _) => apply ct_if
  | |- trace _ = trace _ => solve [auto 2 with ct nocore]
  | |- _ => progress cbv zeta beta iota
  end.

(** ** The instrumented program computes what the model computes
    whenever the model has no undefined behaviour. *)
Definition era {A} (x : outcome A) (y : L A) : Prop := forall r, x = Ret r -> value y = r.
Lemma era_ret {A} (a : A) : era (Ret a) (lret a).
Proof. intros r E; injection E as <-; reflexivity. Qed.
Lemma era_undef {A} (y : L A) : era Undef y.
Proof. intros r E; discriminate E. Qed.
Lemma era_bind {A B} (x : outcome A) y (k : A -> outcome B) k' :
  era x y -> (forall a, era (k a) (k' a)) -> era (bind x k) (lbind y k').
Proof.
  intros E K r H. destruct x as [a|]; [|discriminate H]. unfold lbind, value at 1; cbn [snd].
  rewrite (E a eq_refl). exact (K a r H).
Qed.
Lemma era_skip {A B} (x : outcome A) (y : L B) k' b : value y = b -> era x (k' b) -> era x (lbind y k').
Proof. intros E K r H. unfold lbind, value at 1; cbn [snd]. rewrite E. exact (K r H). Qed.
Lemma era_pure {A B} (x : outcome A) v (k : A -> outcome B) y :
  (forall a, x = Ret a -> a = v) -> era (k v) y -> era (bind x k) y.
Proof. intros E K r H. destruct x as [a|]; [|discriminate H]. rewrite (E a eq_refl) in H. exact (K r H). Qed.
Lemma era_from {S} n i (f : Z -> S -> outcome S) f' s :
  (forall j a, era (f j a) (f' j a)) -> era (for_from n i f s) (lfrom n i f' s).
Proof.
  intros K. revert i s. induction n as [|n IH]; intros i s r H.
  - injection H as <-; reflexivity.
  - cbn [for_from] in H. cbn [lfrom]. cbv zeta. unfold value at 1; cbn [snd].
    destruct (f i s) as [a|] eqn:E; [|discriminate H]. rewrite (K i s a E). exact (IH _ _ _ H).
Qed.
Lemma era_for {S} n (f : Z -> S -> outcome S) f' s :
  (forall j a, era (f j a) (f' j a)) -> era (for_loop n f s) (lfor n f' s).
Proof. apply era_from. Qed.
Lemma era_if {A} (b : bool) (x x' : outcome A) y y' : era x y -> era x' y' -> era (if b then x else x') (lif b y y').
Proof. intros E F; destruct b; intros r H; unfold lif, value; cbn [snd]; [exact (E r H)|exact (F r H)]. Qed.
Lemma era_branch {A} (c : bool) v (x x' : outcome A) (k : bool -> L A) : c = negb (v =? 0) -> (c = true -> era x (k true)) -> (c = false -> era x' (k false)) ->
  era (if c then x else x') (lbind (lbranch Zops v) k).
Proof.
  intros -> E F. unfold lbranch; cbn [reveal Zops]. destruct (negb (v =? 0)); intros r H; unfold lbind, value; cbn [snd];
    [apply (E eq_refl)|apply (F eq_refl)]; exact H.
Qed.
Lemma era_rd l i : era (rd 0 l i) (lrd Zops l i).
Proof. intros r H. unfold rd in H. destruct (_ && _); [injection H as <-; reflexivity|discriminate H]. Qed.
Lemma era_wr (l : list Z) i v : era (wr l i v) (lwr l i v).
Proof. intros r H. unfold wr in H. destruct (_ && _); [injection H as <-; reflexivity|discriminate H]. Qed.
Lemma vzeros_Z n : vzeros Zops n = zeros n. Proof. reflexivity. Qed.
Lemma era_copy dst doff src soff n : era (copy dst doff src soff n) (lcopy Zops dst doff src soff n).
Proof.
  intros r H. destruct (Z.leb_spec n 0) as [Hn|Hn].
  - unfold copy in H. replace (n <=? 0) with true in H by lia. injection H as <-.
    unfold lcopy, lfor. replace (Z.to_nat n) with 0%nat by lia. reflexivity.
  - assert (B : 0 <= doff /\ 0 <= soff /\ doff + n <= zlen dst /\ soff + n <= zlen src).
    { unfold copy in H. replace (n <=? 0) with false in H by lia.
      destruct ((0 <=? doff) && (doff + n <=? zlen dst) && (0 <=? soff) && (soff + n <=? zlen src)) eqn:E; [lia|discriminate H]. }
    rewrite copy_is_loop in H by lia. unfold copy_loop in H. revert r H.
    change (era (for_loop n (fun i b => v <- rd 0 src (soff + i) ;; wr b (doff + i) v) dst) (lcopy Zops dst doff src soff n)).
    apply era_for; intros. apply era_bind; [apply era_rd|intros; apply era_wr].
Qed.

Create HintDb era discriminated.
#[global] Hint Constants Opaque : era.
#[global] Hint Resolve era_rd era_wr era_copy : era.
(** Walks through model and instrumented program side by side. *)
Ltac era_step :=
  match goal with
  | |- forall _, _ => intro
  | a : (_ * _)%type |- _ => destruct a
  | |- era (match ?x with (_, _) => _ end) _ => destruct x
  | |- era _ (lbind (linit _ _) _) => eapply era_skip; [reflexivity|]
  | |- era _ (lbind (ldup _ _ _) _) => eapply era_skip; [reflexivity|]
  | |- era (Ret _) (lret _) => apply era_ret
  | |- era (for_loop _ _ _) (lfor _ _ _) => apply era_for
  | |- era (for_from _ _ _ _) (lfrom _ _ _ _) => apply era_from
  | |- era (if _ then _ else _) (lif _ _ _) => apply era_if
  | |- era _ _ => solve [auto 2 with era nocore]
  | |- _ => progress cbv zeta beta iota
  end.
