(** The hint part of the signature encoding. *)
From Verif Require Import Base SpongePure SpongeProofs Tab DilReduce DilPoly DilVec.

(** ** Specification: positions of the non-zero coefficients, zero padding, running counts *)
Definition positions (h : list Z) : list Z := filter (fun j => negb (ix h j =? 0)) (zseq 0 256).
Definition ind (l : list Z) : list Z := tab 256 (fun i => if existsb (Z.eqb i) l then 1 else 0).
Fixpoint counts (k : Z) (hs : vec) : list Z :=
  match hs with [] => [] | h :: hs => (k + zlen (positions h)) :: counts (k + zlen (positions h)) hs end.
Definition all_positions (hs : vec) : list Z := concat (map positions hs).
Definition hint_encoding (hs : vec) : list Z :=
  all_positions hs ++ zeros (80 - zlen (all_positions hs)) ++ counts 0 hs.
Fixpoint incr (l : list Z) : bool :=
  match l with x :: ((y :: _) as r) => (x <? y) && incr r | _ => true end.
Definition bits01 (h : list Z) : Prop := length h = 256%nat /\ Forall (fun x => x = 0 \/ x = 1) h.

(** ** Increasing lists *)
Lemma incr_cons x l : incr (x :: l) = true <-> (forall y, In y l -> x < y) /\ incr l = true.
Proof.
  revert x. induction l as [|y l IH]; intros x; cbn [incr].
  - split; [intros _; split; [intros ? []|reflexivity]|reflexivity].
  - rewrite andb_true_iff, Z.ltb_lt. split.
    + intros [H1 H2]. split; [|exact H2]. intros z [<-|Hz]; [exact H1|]. apply IH in H2. destruct H2 as [H2 _]. specialize (H2 z Hz). lia.
    + intros [H1 H2]. split; [apply H1; now left|exact H2].
Qed.
Lemma incr_ext a : forall b, incr a = true -> incr b = true -> (forall x, In x a <-> In x b) -> a = b.
Proof.
  induction a as [|x a IH]; intros [|y b] Ha Hb H.
  - reflexivity.
  - exfalso. apply (H y). now left.
  - exfalso. apply (H x). now left.
  - apply incr_cons in Ha as [Ha1 Ha2]. apply incr_cons in Hb as [Hb1 Hb2].
    assert (x = y).
    { assert (Ix: In x (y :: b)) by (apply H; now left). assert (Iy: In y (x :: a)) by (apply H; now left).
      destruct Ix as [|Ix]; [auto|]. destruct Iy as [|Iy]; [auto|]. specialize (Ha1 y Iy). specialize (Hb1 x Ix). lia. }
    subst y. f_equal. apply IH; auto. intros z. split; intros Hz.
    + specialize (Ha1 z Hz). destruct (proj1 (H z) (or_intror Hz)) as [->|]; [lia|auto].
    + specialize (Hb1 z Hz). destruct (proj2 (H z) (or_intror Hz)) as [->|]; [lia|auto].
Qed.
Lemma incr_filter f n : forall i, incr (filter f (zseq i n)) = true.
Proof.
  induction n as [|n IH]; intros i; cbn [zseq filter]; [reflexivity|]. destruct (f i); [|apply IH].
  apply incr_cons. split; [|apply IH]. intros y Hy. apply filter_In in Hy as [Hy _]. apply in_zseq in Hy. lia.
Qed.
Lemma incr_snoc l x : incr (l ++ [x]) = incr l && forallb (fun y => y <? x) (match l with [] => [] | _ => [last l 0] end).
Proof.
  induction l as [|a l IH]; [reflexivity|]. destruct l as [|b l].
  - cbn [app incr forallb last]. now rewrite !andb_true_r.
  - change ((a :: b :: l) ++ [x]) with (a :: (b :: l) ++ [x]). cbn [incr]. cbn [app] in *. rewrite IH.
    change (last (a :: b :: l) 0) with (last (b :: l) 0). now rewrite andb_assoc.
Qed.

(** ** Positions and indicator *)
Lemma in_positions h j : In j (positions h) <-> 0 <= j < 256 /\ ix h j <> 0.
Proof. unfold positions. rewrite filter_In, in_zseq. change (Z.of_nat 256) with 256. lia. Qed.
Lemma incr_positions h : incr (positions h) = true. Proof. apply incr_filter. Qed.
Lemma positions_bytes h : bytes_ok (positions h).
Proof. apply Forall_forall. intros j Hj. apply in_positions in Hj. unfold byte_ok. lia. Qed.
Lemma existsb_eq_In i l : existsb (Z.eqb i) l = true <-> In i l.
Proof. rewrite existsb_exists. split; [intros (x & H & E); apply Z.eqb_eq in E; now subst|intros H; exists i; split; [exact H|apply Z.eqb_refl]]. Qed.
Lemma ix_ind l i : 0 <= i < 256 -> ix (ind l) i = if existsb (Z.eqb i) l then 1 else 0.
Proof. intros H. unfold ind. now rewrite ix_tab. Qed.
Lemma positions_ind l : incr l = true -> bytes_ok l -> positions (ind l) = l.
Proof.
  intros Hi Hb. apply incr_ext; [apply incr_positions|exact Hi|]. intros x. rewrite in_positions.
  unfold bytes_ok in Hb. rewrite Forall_forall in Hb. split.
  - intros [H1 H2]. rewrite ix_ind in H2 by lia. destruct (existsb (Z.eqb x) l) eqn:E; [now apply existsb_eq_In|lia].
  - intros H. specialize (Hb x H). unfold byte_ok in Hb. split; [lia|]. rewrite ix_ind by lia. apply existsb_eq_In in H. rewrite H. lia.
Qed.
Lemma ind_positions h : bits01 h -> ind (positions h) = h.
Proof.
  intros [HL H]. assert (HL': zlen h = 256) by (unfold zlen; lia). apply list_ext_ix.
  - unfold ind. rewrite zlen_tab by lia. lia.
  - unfold ind at 1. rewrite zlen_tab by lia. intros i Hi. rewrite ix_ind by lia.
    assert (Hx: ix h i = 0 \/ ix h i = 1). { rewrite Forall_ix in H. apply H. lia. }
    destruct (existsb (Z.eqb i) (positions h)) eqn:E.
    + apply existsb_eq_In, in_positions in E. lia.
    + destruct Hx as [->| Hx]; [reflexivity|]. exfalso. assert (T: existsb (Z.eqb i) (positions h) = true).
      { apply existsb_eq_In, in_positions. lia. } congruence.
Qed.
Lemma bits01_ind l : bits01 (ind l).
Proof.
  split.
  - apply Nat2Z.inj. change (Z.of_nat (length (ind l))) with (zlen (ind l)). unfold ind. now rewrite zlen_tab.
  - unfold ind, tab. apply Forall_map, Forall_forall. intros x _. destruct (existsb _ _); auto.
Qed.
Lemma zlen_ind l : zlen (ind l) = 256. Proof. unfold ind. now rewrite zlen_tab. Qed.
Lemma ind_snoc l p : 0 <= p < 256 -> upd (ind l) (Z.to_nat p) 1 = ind (l ++ [p]).
Proof.
  intros Hp. unfold ind. rewrite upd_tab by exact Hp. apply tab_ext. intros i Hi. rewrite existsb_app. cbn [existsb].
  rewrite orb_false_r. destruct (i =? p); [now rewrite orb_true_r|now rewrite orb_false_r].
Qed.
Lemma ind_nil : ind [] = zeros 256. Proof. reflexivity. Qed.

(** ** Packing writes the encoding *)
Lemma upd_at {A} (a : list A) x b v n : n = length a -> upd (a ++ x :: b) n v = a ++ v :: b.
Proof. intros ->. induction a as [|y a IH]; cbn [app length upd]; [reflexivity|now rewrite IH]. Qed.
Lemma zeros_S n : 0 < n -> zeros n = 0 :: zeros (n - 1).
Proof. intros H. unfold zeros. replace (Z.to_nat n) with (S (Z.to_nat (n - 1))) by lia. reflexivity. Qed.
Definition nz (h : list Z) (j : Z) : bool := negb (ix h j =? 0).
Lemma filter_step f j : 0 <= j -> filter f (zseq 0 (Z.to_nat (j + 1))) = filter f (zseq 0 (Z.to_nat j)) ++ (if f j then [j] else []).
Proof.
  intros H. replace (Z.to_nat (j + 1)) with (Z.to_nat j + 1)%nat by lia. rewrite zseq_app, filter_app. f_equal.
  cbn [zseq filter]. replace (0 + Z.of_nat (Z.to_nat j)) with j by lia. now destruct (f j).
Qed.
Lemma filter_le f j n : 0 <= j <= n -> zlen (filter f (zseq 0 (Z.to_nat j))) <= zlen (filter f (zseq 0 (Z.to_nat n))).
Proof.
  intros H. replace (Z.to_nat n) with (Z.to_nat j + Z.to_nat (n - j))%nat by lia. rewrite zseq_app, filter_app, zlen_app.
  pose proof (zlen_nonneg (filter f (zseq (0 + Z.of_nat (Z.to_nat j)) (Z.to_nat (n - j))))). lia.
Qed.
Lemma hint_pack_poly_ok h used tail :
  zlen h = 256 -> zlen used + zlen (positions h) <= 80 ->
  hint_pack_poly h (used ++ zeros (80 - zlen used) ++ tail, zlen used) =
  Ret (used ++ positions h ++ zeros (80 - zlen used - zlen (positions h)) ++ tail, zlen used + zlen (positions h)).
Proof.
  intros HL Hk. unfold hint_pack_poly.
  set (pj := fun j => filter (nz h) (zseq 0 (Z.to_nat j))).
  assert (E256: positions h = pj 256) by reflexivity. rewrite E256 in *.
  pose (st := fun j => (used ++ pj j ++ zeros (80 - zlen used - zlen (pj j)) ++ tail, zlen used + zlen (pj j))).
  change (Ret (used ++ pj 256 ++ zeros (80 - zlen used - zlen (pj 256)) ++ tail, zlen used + zlen (pj 256))) with (Ret (st 256)).
  replace (used ++ zeros (80 - zlen used) ++ tail, zlen used) with (st 0).
  2:{ unfold st. assert (pj 0 = []) as -> by reflexivity. change (zlen (@nil Z)) with 0. rewrite Z.sub_0_r, Z.add_0_r. reflexivity. }
  apply (for_loop_state st); [lia|]. intros j Hj. unfold st at 1.
  rewrite rd_ix by lia. cbn [bind]. pose proof (zlen_nonneg used). pose proof (zlen_nonneg (pj j)).
  assert (S1: pj (j + 1) = pj j ++ (if nz h j then [j] else [])) by (apply filter_step; lia).
  assert (LE: zlen (pj (j + 1)) <= zlen (pj 256)) by (apply filter_le; lia).
  unfold nz in S1. destruct (ix h j =? 0) eqn:Ez; cbn [negb] in S1.
  - rewrite app_nil_r in S1. unfold st. now rewrite S1.
  - rewrite S1, zlen_app in LE. change (zlen [j]) with 1 in LE.
    rewrite (zeros_S (80 - zlen used - zlen (pj j))) by lia. cbn [app].
    rewrite wr_ok.
    2:{ rewrite !zlen_app, zlen_cons, zlen_app, zlen_zeros by lia. pose proof (zlen_nonneg tail). lia. }
    cbn [bind]. unfold st. rewrite S1, zlen_app. change (zlen [j]) with 1. f_equal. f_equal; [|lia].
    rewrite app_assoc, upd_at; [|rewrite app_length; unfold zlen; lia].
    rewrite <- !app_assoc. cbn [app]. f_equal. f_equal. unfold u8. rewrite Z.mod_small by lia. f_equal. f_equal. f_equal. lia.
Qed.
Lemma hint_pack_loop_ok : forall hs i used cnts,
  i = zlen cnts -> i + zlen hs = 4 -> Forall (fun h => zlen h = 256) hs -> zlen used + zlen (all_positions hs) <= 80 ->
  hint_pack_loop i hs (used ++ zeros (80 - zlen used) ++ cnts ++ zeros (4 - i), zlen used) =
  Ret (used ++ all_positions hs ++ zeros (80 - zlen used - zlen (all_positions hs)) ++ cnts ++ counts (zlen used) hs,
       zlen used + zlen (all_positions hs)).
Proof.
  induction hs as [|h hs IH]; intros i used cnts Hi H4 HF HB; cbn [hint_pack_loop counts].
  - change (zlen []) with 0 in H4. unfold all_positions. cbn [map concat app]. change (zlen (@nil Z)) with 0. rewrite Z.sub_0_r, Z.add_0_r, app_nil_r.
    replace (4 - i) with 0 by lia. change (zeros 0) with (@nil Z). now rewrite app_nil_r.
  - apply Forall_cons_iff in HF as [HL HF]. rewrite zlen_cons in H4. pose proof (zlen_nonneg hs). pose proof (zlen_nonneg cnts).
    assert (EA: all_positions (h :: hs) = positions h ++ all_positions hs) by reflexivity. rewrite EA, zlen_app in *.
    pose proof (zlen_nonneg (all_positions hs)). pose proof (zlen_nonneg used). pose proof (zlen_nonneg (positions h)).
    rewrite hint_pack_poly_ok by lia. cbn [bind].
    rewrite (zeros_S (4 - i)) by lia.
    replace (used ++ positions h ++ zeros (80 - zlen used - zlen (positions h)) ++ cnts ++ 0 :: zeros (4 - i - 1))
      with ((used ++ positions h ++ zeros (80 - zlen used - zlen (positions h)) ++ cnts) ++ 0 :: zeros (4 - i - 1)) by now rewrite <- !app_assoc.
    assert (HLp: zlen (used ++ positions h ++ zeros (80 - zlen used - zlen (positions h)) ++ cnts) = 80 + i) by (rewrite !zlen_app, zlen_zeros; lia).
    rewrite wr_ok by (rewrite zlen_app, HLp, zlen_cons; pose proof (zlen_nonneg (zeros (4 - i - 1))); lia). cbn [bind].
    rewrite upd_at by (unfold zlen in HLp at 1; lia).
    specialize (IH (i + 1) (used ++ positions h) (cnts ++ [zlen used + zlen (positions h)])).
    rewrite !zlen_app in IH. change (zlen [zlen used + zlen (positions h)]) with 1 in IH.
    assert (U: u8 (zlen used + zlen (positions h)) = zlen used + zlen (positions h)) by (unfold u8; apply Z.mod_small; lia). rewrite U.
    rewrite <- !app_assoc in *. cbn [app] in IH |- *.
    replace (80 - (zlen used + zlen (positions h))) with (80 - zlen used - zlen (positions h)) in IH by lia.
    replace (4 - (i + 1)) with (4 - i - 1) in IH by lia.
    rewrite IH; [|lia|lia|exact HF|lia]. f_equal. f_equal; [|lia]. do 2 f_equal. f_equal. f_equal. f_equal. lia.
Qed.
Lemma hint_pack_ok (hs : vec) : length hs = 4%nat -> Forall (fun h => zlen h = 256) hs -> zlen (all_positions hs) <= 80 ->
  hint_pack hs = Ret (hint_encoding hs).
Proof.
  intros HL HF HB. unfold hint_pack. pose proof (hint_pack_loop_ok hs 0 [] []) as H. change (zlen (@nil Z)) with 0 in H.
  change (([] ++ zeros (80 - 0) ++ [] ++ zeros (4 - 0))) with (zeros 84) in H.
  rewrite H; [|lia|unfold zlen; lia|exact HF|lia]. cbn [bind app]. unfold hint_encoding. now rewrite Z.sub_0_r.
Qed.

(** ** Unpacking *)
Lemma app_len_inj {A} (a b c d : list A) : zlen a = zlen c -> a ++ b = c ++ d -> a = c /\ b = d.
Proof.
  revert c. induction a as [|x a IH]; intros [|y c] HL E.
  - auto.
  - rewrite zlen_cons in HL. pose proof (zlen_nonneg c). change (zlen (@nil A)) with 0 in HL. lia.
  - rewrite zlen_cons in HL. pose proof (zlen_nonneg a). change (zlen (@nil A)) with 0 in HL. lia.
  - rewrite !zlen_cons in HL. injection E as -> E. destruct (IH c ltac:(lia) E) as [-> ->]. auto.
Qed.
Lemma slice_snoc (l : list Z) k n : 0 <= k -> 0 <= n -> k + n < zlen l -> slice l k (n + 1) = slice l k n ++ [ix l (k + n)].
Proof.
  intros Hk Hn H. rewrite (slice_split l k (n + 1) n) by lia. f_equal. replace (n + 1 - n) with 1 by lia.
  apply list_ext_ix; [rewrite zlen_slice by lia; reflexivity|]. rewrite zlen_slice by lia. intros i Hi. rewrite ix_slice by lia.
  replace i with 0 by lia. rewrite Z.add_0_r. reflexivity.
Qed.
Lemma last_slice (l : list Z) k n : 0 <= k -> 0 < n -> k + n <= zlen l -> last (slice l k n) 0 = ix l (k + n - 1).
Proof.
  intros Hk Hn H. replace n with (n - 1 + 1) at 1 by lia. rewrite slice_snoc by lia. rewrite last_last. f_equal. lia.
Qed.
Lemma cons_inj2 {A} (x y : A) a b : x :: a = y :: b -> x = y /\ a = b. Proof. intros E. injection E. auto. Qed.
Definition seg (hb : list Z) (k j : Z) : option (list Z) :=
  let l := slice hb k (j - k) in if incr l then Some (ind l) else None.
Lemma hint_unpack_poly_ok hb k cnt : zlen hb = 84 -> bytes_ok hb -> 0 <= k <= cnt -> cnt <= 80 ->
  hint_unpack_poly hb k cnt = Ret (seg hb k cnt).
Proof.
  intros HL Hb Hk Hc. unfold hint_unpack_poly.
  destruct (for_from_inv (fun j s => s = seg hb k j) (fun j s =>
    match s with
    | None => Ret None
    | Some h =>
        bad <- (if k <? j then a <- rd 0 hb j ;; b <- rd 0 hb (j - 1) ;; Ret (a <=? b) else Ret false) ;;
        if bad : bool then Ret None else p <- rd 0 hb j ;; h <- wr h p 1 ;; Ret (Some h)
    end) (Z.to_nat (cnt - k)) k (Some (zeros 256))) as (s' & E & ->).
  - unfold seg. rewrite Z.sub_diag. reflexivity.
  - intros j s Hj ->. eexists. split; [|reflexivity]. unfold seg. replace (j + 1 - k) with (j - k + 1) by lia.
    rewrite slice_snoc by lia. replace (k + (j - k)) with j by lia. rewrite incr_snoc.
    destruct (incr (slice hb k (j - k))) eqn:Ei; [|reflexivity]. cbn [andb].
    assert (Bj: 0 <= ix hb j < 256) by (apply (bytes_ok_nth hb); exact Hb).
    assert (G: (p <- rd 0 hb j ;; h <- wr (ind (slice hb k (j - k))) p 1 ;; Ret (Some h)) = Ret (Some (ind (slice hb k (j - k) ++ [ix hb j])))).
    { rewrite rd_ix by lia. cbn [bind]. rewrite wr_ok by (rewrite zlen_ind; lia). cbn [bind]. now rewrite ind_snoc by lia. }
    destruct (Z.ltb_spec k j).
    + rewrite !rd_ix by lia. cbn [bind].
      assert (F: forallb (fun y => y <? ix hb j) match slice hb k (j - k) with [] => [] | _ => [last (slice hb k (j - k)) 0] end = (ix hb (j - 1) <? ix hb j)).
      { assert (Hne: slice hb k (j - k) <> []). { intros X. apply (f_equal zlen) in X. rewrite zlen_slice in X by lia. change (zlen (@nil Z)) with 0 in X. lia. }
        replace (ix hb (j - 1)) with (last (slice hb k (j - k)) 0) by (rewrite last_slice by lia; f_equal; lia).
        destruct (slice hb k (j - k)); [now destruct Hne|]. cbn [forallb]. now rewrite andb_true_r. }
      rewrite F. rewrite rd_ix in G by lia. cbn [bind] in G. destruct (Z.leb_spec (ix hb j) (ix hb (j - 1))).
      * replace (ix hb (j - 1) <? ix hb j) with false by lia. reflexivity.
      * replace (ix hb (j - 1) <? ix hb j) with true by lia. exact G.
    + replace (j - k) with 0 in * by lia. rewrite slice_0 in *. cbn [bind forallb]. exact G.
  - rewrite E. f_equal. f_equal. lia.
Qed.

(** accepted hint areas are encodings *)
Lemma hint_unpack_loop_sound hb : zlen hb = 84 -> bytes_ok hb -> forall n i k, 0 <= k <= 80 -> 0 <= i -> i + Z.of_nat n <= 4 ->
  exists r, hint_unpack_loop n i hb k = Ret r /\
  forall hs k', r = Some (hs, k') ->
    k <= k' <= 80 /\ length hs = n /\ Forall bits01 hs /\
    all_positions hs = slice hb k (k' - k) /\ counts k hs = slice hb (80 + i) (Z.of_nat n).
Proof.
  intros HL Hb. induction n as [|n IH]; intros i k Hk Hi Hn; cbn [hint_unpack_loop].
  - eexists. split; [reflexivity|]. intros hs k' E. injection E as <- <-. split; [lia|]. split; [reflexivity|]. split; [constructor|].
    rewrite Z.sub_diag. split; reflexivity.
  - rewrite rd_ix by lia. cbn [bind]. set (cnt := ix hb (80 + i)).
    destruct ((cnt <? k) || (80 <? cnt)) eqn:Eb; [eexists; split; [reflexivity|]; discriminate|].
    apply orb_false_iff in Eb as [E1 E2]. rewrite hint_unpack_poly_ok by (assumption || lia). cbn [bind]. unfold seg.
    destruct (incr (slice hb k (cnt - k))) eqn:Ei; [|eexists; split; [reflexivity|]; discriminate].
    destruct (IH (i + 1) cnt ltac:(lia) ltac:(lia) ltac:(lia)) as (r & Er & Hr). rewrite Er. cbn [bind].
    destruct r as [[hs k']|]; [|eexists; split; [reflexivity|]; discriminate].
    destruct (Hr hs k' eq_refl) as (R1 & R2 & R3 & R4 & R5).
    eexists. split; [reflexivity|]. intros hs0 k0 E. injection E as <- <-.
    assert (Ep: positions (ind (slice hb k (cnt - k))) = slice hb k (cnt - k)) by (apply positions_ind; [exact Ei|now apply bytes_ok_slice]).
    split; [lia|]. split; [cbn [length]; lia|]. split; [constructor; [apply bits01_ind|exact R3]|]. split.
    + unfold all_positions in *. cbn [map concat]. rewrite Ep, R4. rewrite (slice_split hb k (k' - k) (cnt - k)) by lia. f_equal. f_equal; lia.
    + cbn [counts]. rewrite Ep, zlen_slice by lia. replace (k + (cnt - k)) with cnt by lia. rewrite R5.
      replace (Z.of_nat (S n)) with (1 + Z.of_nat n) by lia. rewrite (slice_split hb (80 + i) (1 + Z.of_nat n) 1) by lia.
      replace (slice hb (80 + i) 1) with [cnt].
      * cbn [app]. f_equal. f_equal; lia.
      * symmetry. replace 1 with (0 + 1) by lia. rewrite slice_snoc by lia. rewrite slice_0. cbn [app]. unfold cnt. do 2 f_equal. lia.
Qed.
Lemma zero_check hb k : zlen hb = 84 -> 0 <= k <= 80 ->
  for_from (Z.to_nat (80 - k)) k (fun j ok => c <- rd 0 hb j ;; Ret (ok && (c =? 0))) true = Ret (forallb (fun c => c =? 0) (slice hb k (80 - k))).
Proof.
  intros HL Hk.
  destruct (for_from_inv (fun j ok => ok = forallb (fun c => c =? 0) (slice hb k (j - k)))
             (fun j ok => c <- rd 0 hb j ;; Ret (ok && (c =? 0))) (Z.to_nat (80 - k)) k true) as (s' & E & ->).
  - rewrite Z.sub_diag. reflexivity.
  - intros j s Hj ->. rewrite rd_ix by lia. cbn [bind]. eexists. split; [reflexivity|]. replace (j + 1 - k) with (j - k + 1) by lia.
    rewrite slice_snoc by lia. rewrite forallb_app. cbn [forallb]. rewrite andb_true_r. do 3 f_equal. lia.
  - rewrite E. do 3 f_equal. lia.
Qed.
Lemma all_zero_zeros l : forallb (fun c => c =? 0) l = true <-> l = zeros (zlen l).
Proof.
  unfold zeros, zlen. rewrite Nat2Z.id. induction l as [|x l IH]; cbn [forallb length repeat]; [split; reflexivity|].
  rewrite andb_true_iff, Z.eqb_eq, IH. split; [intros [-> <-]; reflexivity|]. intros E. injection E as -> E. split; [reflexivity|congruence].
Qed.
Lemma hint_unpack_sound hb : zlen hb = 84 -> bytes_ok hb ->
  exists r, hint_unpack hb = Ret r /\
  forall hs, r = Some hs -> length hs = 4%nat /\ Forall bits01 hs /\ zlen (all_positions hs) <= 80 /\ hb = hint_encoding hs.
Proof.
  intros HL Hb. unfold hint_unpack. destruct (hint_unpack_loop_sound hb HL Hb 4 0 0 ltac:(lia) ltac:(lia) ltac:(lia)) as (r & E & H). rewrite E. cbn [bind].
  destruct r as [[hs k]|]; [|eexists; split; [reflexivity|]; discriminate].
  destruct (H hs k eq_refl) as (R1 & R2 & R3 & R4 & R5). rewrite zero_check by (assumption || lia). cbn [bind].
  eexists. split; [reflexivity|]. intros hs0 E0. destruct (forallb _ _) eqn:Ez; [|discriminate]. injection E0 as <-.
  rewrite Z.sub_0_r in R4. change (80 + 0) with 80 in R5. change (Z.of_nat 4) with 4 in R5.
  assert (Hlen: zlen (all_positions hs) = k) by (rewrite R4; apply zlen_slice; lia).
  repeat (split; [assumption || lia|]). unfold hint_encoding. rewrite Hlen, R4, R5.
  apply all_zero_zeros in Ez. rewrite zlen_slice in Ez by lia. rewrite <- Ez.
  rewrite <- (slice_all hb 84) at 1 by auto. rewrite (slice_split hb 0 84 k) by lia. f_equal.
  rewrite (slice_split hb (0 + k) (84 - k) (80 - k)) by lia. f_equal; f_equal; lia.
Qed.

(** encodings are accepted *)
Lemma seg_positions hb k h : bits01 h -> slice hb k (zlen (positions h)) = positions h -> seg hb k (k + zlen (positions h)) = Some h.
Proof.
  intros Hh E. unfold seg. replace (k + zlen (positions h) - k) with (zlen (positions h)) by lia. rewrite E, incr_positions. now rewrite ind_positions.
Qed.
Lemma counts_len k hs : zlen (counts k hs) = zlen hs.
Proof. revert k. induction hs as [|h hs IH]; intros k; cbn [counts]; [reflexivity|]. rewrite !zlen_cons. now rewrite IH. Qed.
Lemma hint_unpack_loop_complete hb : zlen hb = 84 -> bytes_ok hb -> forall hs i k,
  0 <= i -> i + zlen hs <= 4 -> 0 <= k -> k + zlen (all_positions hs) <= 80 -> Forall bits01 hs ->
  slice hb k (zlen (all_positions hs)) = all_positions hs -> slice hb (80 + i) (zlen hs) = counts k hs ->
  hint_unpack_loop (length hs) i hb k = Ret (Some (hs, k + zlen (all_positions hs))).
Proof.
  intros HL Hb. induction hs as [|h hs IH]; intros i k Hi H4 Hk HB HF EP EC; cbn [length hint_unpack_loop].
  - unfold all_positions. cbn [map concat]. change (zlen (@nil Z)) with 0. now rewrite Z.add_0_r.
  - apply Forall_cons_iff in HF as [Hh HF]. rewrite zlen_cons in *. pose proof (zlen_nonneg hs).
    assert (EA: all_positions (h :: hs) = positions h ++ all_positions hs) by reflexivity. rewrite EA, zlen_app in *.
    pose proof (zlen_nonneg (all_positions hs)). pose proof (zlen_nonneg (positions h)).
    cbn [counts] in EC. rewrite (slice_split hb (80 + i) (1 + zlen hs) 1) in EC by lia.
    assert (E1: slice hb (80 + i) 1 = [ix hb (80 + i)]) by (replace 1 with (0 + 1) by lia; rewrite slice_snoc by lia; rewrite slice_0; cbn [app]; do 2 f_equal; lia).
    rewrite E1 in EC. cbn [app] in EC. apply cons_inj2 in EC as [Ecnt EC].
    rewrite rd_ix by lia. cbn [bind]. rewrite Ecnt.
    replace (_ || _) with false by lia. rewrite hint_unpack_poly_ok by (assumption || lia). cbn [bind].
    rewrite (slice_split hb k _ (zlen (positions h))) in EP by lia.
    apply app_len_inj in EP as [EP1 EP2]; [|rewrite zlen_slice by lia; reflexivity].
    rewrite seg_positions by assumption.
    rewrite IH; [|lia|lia|lia|lia|exact HF| |].
    + cbn [bind]. do 3 f_equal. lia.
    + rewrite <- EP2 at 2. f_equal. lia.
    + rewrite <- EC. f_equal; lia.
Qed.
Lemma counts_bytes : forall hs k, 0 <= k -> k + zlen (all_positions hs) <= 80 -> bytes_ok (counts k hs).
Proof.
  induction hs as [|h hs IH]; intros k Hk HB; cbn [counts]; [constructor|].
  assert (EA: all_positions (h :: hs) = positions h ++ all_positions hs) by reflexivity. rewrite EA, zlen_app in HB.
  pose proof (zlen_nonneg (all_positions hs)). pose proof (zlen_nonneg (positions h)).
  constructor; [unfold byte_ok; lia|apply IH; lia].
Qed.
Lemma all_positions_bytes hs : bytes_ok (all_positions hs).
Proof. unfold all_positions. induction hs as [|h hs IH]; cbn [map concat]; [constructor|]. apply bytes_ok_app. split; [apply positions_bytes|exact IH]. Qed.
Lemma hint_encoding_len (hs : vec) : length hs = 4%nat -> zlen (all_positions hs) <= 80 -> zlen (hint_encoding hs) = 84.
Proof. intros HL HB. unfold hint_encoding. rewrite !zlen_app, zlen_zeros, counts_len by lia. unfold zlen. lia. Qed.
Lemma hint_encoding_bytes hs : zlen (all_positions hs) <= 80 -> bytes_ok (hint_encoding hs).
Proof.
  intros HB. unfold hint_encoding. rewrite !bytes_ok_app. split; [apply all_positions_bytes|]. split; [apply bytes_ok_zeros|]. apply counts_bytes; lia.
Qed.
Lemma hint_unpack_complete (hs : vec) : length hs = 4%nat -> Forall bits01 hs -> zlen (all_positions hs) <= 80 ->
  hint_unpack (hint_encoding hs) = Ret (Some hs).
Proof.
  intros HL HF HB. pose proof (hint_encoding_len hs HL HB) as H84. pose proof (hint_encoding_bytes hs HB) as Hb.
  pose proof (zlen_nonneg (all_positions hs)).
  assert (Z4: zlen hs = 4) by (unfold zlen; lia).
  unfold hint_unpack. pose proof (hint_unpack_loop_complete (hint_encoding hs) H84 Hb hs 0 0) as L. rewrite HL in L.
  rewrite L; [|lia|lia|lia|lia|exact HF| |].
  - cbn [bind]. rewrite zero_check by lia. cbn [bind].
    replace (forallb _ _) with true; [reflexivity|]. symmetry. apply all_zero_zeros. rewrite zlen_slice by lia.
    unfold hint_encoding at 1. rewrite slice_app_r by lia. rewrite slice_app_l by (rewrite ?zlen_zeros; lia).
    cbn [Z.add]. rewrite Z.sub_diag. apply slice_all. rewrite zlen_zeros; lia.
  - unfold hint_encoding. rewrite slice_app_l by lia. now apply slice_all.
  - unfold hint_encoding. rewrite app_assoc, slice_app_r.
    + rewrite zlen_app, zlen_zeros by lia.
      replace (80 + 0 - _) with 0 by lia. apply slice_all. now rewrite counts_len.
    + rewrite zlen_app, zlen_zeros by lia. lia.
    + lia.
Qed.
