(** Property theorems about random/randombytes.c (C37, C52). *)
From Coq Require Import ZifyBool ZifyNat.
From Verif Require Import Base Random.
Local Open Scope Z_scope.

(** What the operating system supplies to a request for [n] bytes, as a relation:
    [supplies retry max n es out r]: after the results [es] the request has received
    the bytes [out]; [r] says whether it is complete, was refused, or still waits.
    [retry e]: errno values that only ask to try again. *)
Inductive status := Complete | Refused | Pending.
Inductive supplies (retry : Z -> Prop) (max : Z) : Z -> list sysres -> list Z -> status -> Prop :=
| sup_done es : supplies retry max 0 es [] Complete
| sup_wait n : 0 < n -> supplies retry max n [] [] Pending
| sup_retry n e es out r : 0 < n -> retry e -> supplies retry max n es out r -> supplies retry max n (Err e :: es) out r
| sup_error n e es : 0 < n -> ~ retry e -> supplies retry max n (Err e :: es) [] Refused
| sup_got n bs w es out r : 0 < n -> zlen w <= Z.min n max -> (w = bs \/ (zlen w = Z.min n max /\ exists rest, bs = w ++ rest)) ->
    supplies retry max (n - zlen w) es out r -> supplies retry max n (Got bs :: es) (w ++ out) r.

(** A finished or waiting run that received [out] for a request of [n] bytes:
    the received bytes are at the start of the buffer, everything behind them is
    untouched, and the code tells the truth. *)
Definition truthful (buf : list Z) (n : Z) (out : list Z) (r : status) (res : run) : Prop :=
  let buf' := out ++ slice buf (zlen out) (zlen buf - zlen out) in
  zlen out <= n /\
  match r with
  | Complete => zlen out = n /\ res = Done 0 buf'
  | Refused => zlen out < n /\ exists c, c <> 0 /\ res = Done c buf'
  | Pending => zlen out < n /\ res = Waiting buf'
  end.

Lemma copy_any d off v : 0 <= off -> off + zlen v <= zlen d -> copy d off v 0 (zlen v) = Ret (slice d 0 off ++ v ++ slice d (off + zlen v) (zlen d - off - zlen v)).
Proof. intros Ho Hl. pose proof (zlen_nonneg v). rewrite copy_ok by lia. rewrite (slice_all v) by reflexivity. reflexivity. Qed.

Section Loop.
Variables (retryb : Z -> bool) (max : Z) (loop : list sysres -> list Z -> Z -> Z -> outcome run).
Hypothesis Hmax : 0 < max.
Hypothesis loop_eq : forall es buf offset n, loop es buf offset n =
  if n <=? 0 then Ret (Done 0 buf) else
  match es with
  | [] => Ret (Waiting buf)
  | Err e :: es' => if retryb e then loop es' buf offset n else Ret (Done (-1) buf)
  | Got bs :: es' => let chunk := if n <=? max then n else max in let w := slice bs 0 (Z.min (zlen bs) chunk) in
      buf <- copy buf offset w 0 (zlen w) ;; loop es' buf (offset + zlen w) (n - zlen w)
  end.
Lemma loop_ok : forall es buf pre tl n, 0 <= n -> n <= zlen tl -> buf = pre ++ tl ->
  exists out r res, loop es buf (zlen pre) n = Ret res /\ supplies (fun e => retryb e = true) max n es out r /\ zlen out <= n /\
    let buf' := pre ++ out ++ slice tl (zlen out) (zlen tl - zlen out) in
    match r with Complete => zlen out = n /\ res = Done 0 buf' | Refused => zlen out < n /\ res = Done (-1) buf' | Pending => zlen out < n /\ res = Waiting buf' end.
Proof.
  induction es as [|ev es IH]; intros buf pre tl n Hn Hl ->; rewrite loop_eq.
  - destruct (Z.leb_spec n 0) as [h|h].
    + assert (n = 0) by lia. subst n. exists [], Complete, (Done 0 (pre ++ tl)). change (zlen (@nil Z)) with 0. repeat split; try lia; [constructor|]. rewrite app_nil_l, Z.sub_0_r, slice_all by reflexivity. reflexivity.
    + exists [], Pending, (Waiting (pre ++ tl)). change (zlen (@nil Z)) with 0. repeat split; try lia; [constructor; lia|]. rewrite app_nil_l, Z.sub_0_r, slice_all by reflexivity. reflexivity.
  - destruct (Z.leb_spec n 0) as [h|h].
    + assert (n = 0) by lia. subst n. exists [], Complete, (Done 0 (pre ++ tl)). change (zlen (@nil Z)) with 0. repeat split; try lia; [constructor|]. rewrite app_nil_l, Z.sub_0_r, slice_all by reflexivity. reflexivity.
    + destruct ev as [bs|e].
      * cbv zeta. set (chunk := if n <=? max then n else max). assert (Hc: chunk = Z.min n max) by (unfold chunk; destruct (Z.leb_spec n max); lia). pose proof (zlen_nonneg bs) as Hb.
        set (w := slice bs 0 (Z.min (zlen bs) chunk)). assert (Lw: zlen w = Z.min (zlen bs) chunk) by (unfold w; rewrite zlen_slice; lia).
        rewrite copy_any by (rewrite ?zlen_app; pose proof (zlen_nonneg pre); lia). cbn [bind]. pose proof (zlen_nonneg pre) as Hp.
        rewrite zlen_app. rewrite (slice_app_l pre tl 0 (zlen pre)) by lia. rewrite (slice_all pre) by reflexivity. rewrite (slice_app_r pre tl (zlen pre + zlen w)) by lia. replace (zlen pre + zlen w - zlen pre) with (zlen w) by lia. replace (zlen pre + zlen tl - zlen pre - zlen w) with (zlen tl - zlen w) by lia.
        destruct (IH ((pre ++ w) ++ slice tl (zlen w) (zlen tl - zlen w)) (pre ++ w) (slice tl (zlen w) (zlen tl - zlen w)) (n - zlen w)) as (out & r & res & E & Hs & Ho & Hr); [lia|rewrite zlen_slice; lia|reflexivity|].
        rewrite zlen_app, <- app_assoc in E. pose proof (zlen_nonneg out) as Hz. exists (w ++ out), r, res. split; [exact E|]. split.
        { apply sup_got; [lia|lia| |exact Hs]. destruct (Z.le_gt_cases (zlen bs) chunk) as [g|g].
          - left. unfold w. rewrite Z.min_l by lia. apply slice_all. reflexivity.
          - right. split; [lia|]. exists (slice bs chunk (zlen bs - chunk)). unfold w. rewrite Z.min_r by lia. rewrite <- (slice_all bs (zlen bs) eq_refl) at 1. rewrite (slice_split bs 0 (zlen bs) chunk) by lia. reflexivity. }
        rewrite zlen_app. split; [lia|]. cbv zeta in *. rewrite zlen_slice in Hr by lia. rewrite slice_slice in Hr by lia. replace (zlen tl - (zlen w + zlen out)) with (zlen tl - zlen w - zlen out) by lia. rewrite <- !app_assoc in Hr. rewrite <- app_assoc.
        destruct r; destruct Hr as [Hr1 Hr2]; (split; [lia|exact Hr2]).
      * destruct (retryb e) eqn:Er.
        -- destruct (IH (pre ++ tl) pre tl n Hn Hl eq_refl) as (out & r & res & E & Hs & Ho & Hr). exists out, r, res. split; [exact E|]. split; [apply sup_retry; [lia|exact Er|exact Hs]|]. split; assumption.
        -- exists [], Refused, (Done (-1) (pre ++ tl)). change (zlen (@nil Z)) with 0. repeat split; try lia; [constructor; [lia|congruence]|]. rewrite app_nil_l, Z.sub_0_r, slice_all by reflexivity. reflexivity.
Qed.
End Loop.

(** ** C37: the Linux variants *)
Theorem C37_getrandom_fills_or_reports : forall es buf n, 0 <= n <= zlen buf ->
  exists out r res, randombytes_getrandom es buf n = Ret res /\ supplies (fun e => e = EINTR) 33554431 n es out r /\ truthful buf n out r res.
Proof.
  intros es buf n Hn. unfold randombytes_getrandom.
  destruct (loop_ok (fun e => e =? EINTR) 33554431 getrandom_loop ltac:(lia) ltac:(intros [|[]]; reflexivity) es buf [] buf n ltac:(lia) ltac:(lia) eq_refl) as (out & r & res & E & Hs & Ho & Hr).
  exists out, r, res. split; [exact E|]. split.
  - clear -Hs. induction Hs; [constructor|constructor; assumption|constructor; try assumption; lia|constructor; try assumption; lia|econstructor; eassumption].
  - unfold truthful. split; [exact Ho|]. cbv zeta in Hr. rewrite app_nil_l in Hr. destruct r; destruct Hr as [H1 H2]; split; try assumption. exists (-1). split; [lia|exact H2].
Qed.
Print Assumptions C37_getrandom_fills_or_reports.

Theorem C37_urandom_fills_or_reports : forall opens ent es buf n, 0 <= n <= zlen buf ->
  (exists out r res, randombytes_urandom opens ent es buf n = Ret res /\ supplies (fun e => e = EINTR \/ e = EAGAIN) (2 ^ 63 - 1) n es out r /\ truthful buf n out r res) \/
  randombytes_urandom opens ent es buf n = Ret (Done (-1) buf) \/ randombytes_urandom opens ent es buf n = Ret (Waiting buf).
Proof.
  intros opens ent es buf n Hn. unfold randombytes_urandom. destruct (open_loop opens) as [[]|]; [|right; left; reflexivity|right; right; reflexivity]. destruct ent; [|right; left; reflexivity]. left.
  destruct (loop_ok (fun e => (e =? EAGAIN) || (e =? EINTR)) (2 ^ 63 - 1) urandom_loop ltac:(lia) ltac:(intros [|[]]; reflexivity) es buf [] buf n ltac:(lia) ltac:(lia) eq_refl) as (out & r & res & E & Hs & Ho & Hr).
  exists out, r, res. split; [exact E|]. split.
  - clear -Hs. induction Hs; [constructor|constructor; assumption|constructor; try assumption; lia|constructor; try assumption; lia|econstructor; eassumption].
  - unfold truthful. split; [exact Ho|]. cbv zeta in Hr. rewrite app_nil_l in Hr. destruct r; destruct Hr as [H1 H2]; split; try assumption. exists (-1). split; [lia|exact H2].
Qed.
Print Assumptions C37_urandom_fills_or_reports.

(** Short reads and interruptions never make the call fail: if the system never
    reports a real error and in total offers n bytes in calls of at most 33554431
    bytes, the call returns 0. *)
Definition offered (es : list sysres) : list Z := flat_map (fun e => match e with Got bs => bs | Err _ => [] end) es.
Theorem C37_getrandom_completes : forall es buf n, 0 <= n <= zlen buf ->
  (forall e, In (Err e) es -> e = EINTR) -> (forall bs, In (Got bs) es -> zlen bs <= 33554431) -> n <= zlen (offered es) ->
  randombytes_getrandom es buf n = Ret (Done 0 (slice (offered es) 0 n ++ slice buf n (zlen buf - n))).
Proof.
  intros es buf n Hn He Hb Ho. destruct (C37_getrandom_fills_or_reports es buf n Hn) as (out & r & res & E & Hs & Ht). rewrite E. f_equal.
  assert (G: r = Complete /\ exists tl, offered es = out ++ tl /\ zlen out = n).
  { clear -Hs He Hb Ho. induction Hs as [es|n Hn|n e es out r Hn Hr Hs IH|n e es Hn Hr|n bs w es out r Hn Hw Hc Hs IH].
    - split; [reflexivity|]. exists (offered es). split; reflexivity.
    - change (offered []) with (@nil Z) in Ho. change (zlen (@nil Z)) with 0 in Ho. lia.
    - change (offered (Err e :: es)) with (offered es) in *. apply IH; [intros; apply He; now right|intros; apply Hb; now right|exact Ho].
    - exfalso. apply Hr. apply He. now left.
    - change (offered (Got bs :: es)) with (bs ++ offered es) in *. rewrite zlen_app in Ho.
      assert (Lbs: zlen bs <= 33554431) by (apply Hb; now left).
      destruct Hc as [->|[Ew [rest ->]]].
      + destruct IH as (-> & tl & Et & En); [intros; apply He; now right|intros; apply Hb; now right|lia|]. split; [reflexivity|]. exists tl. rewrite Et, <- app_assoc. split; [reflexivity|]. rewrite zlen_app. lia.
      + rewrite zlen_app in Lbs, Ho. pose proof (zlen_nonneg rest) as Hrest. destruct (Z.le_gt_cases n 33554431) as [g|g].
        * assert (zlen w = n) by lia. inversion Hs; subst; try lia. split; [reflexivity|]. exists (rest ++ offered es). rewrite app_nil_r, <- app_assoc. split; [reflexivity|lia].
        * assert (zlen rest = 0) by lia. assert (rest = []) as -> by (destruct rest; [reflexivity|rewrite zlen_cons in *; pose proof (zlen_nonneg rest); lia]).
          destruct IH as (-> & tl & Et & En); [intros; apply He; now right|intros; apply Hb; now right|lia|]. split; [reflexivity|]. exists tl. rewrite Et, app_nil_r, <- app_assoc. split; [reflexivity|]. rewrite zlen_app. lia. }
  destruct G as (-> & tl & Et & En). destruct Ht as (_ & _ & ->). rewrite Et, En. rewrite slice_app_l by lia. rewrite (slice_all out) by lia. reflexivity.
Qed.
Print Assumptions C37_getrandom_completes.
Example C37_nonvacuous : randombytes_getrandom [Err EINTR; Got [1;2]; Got []; Err EINTR; Got [3;4;5;6]] (repeat 0 6) 4 = Ret (Done 0 [1;2;3;4;0;0]) /\
  randombytes_getrandom [Got [1;2]; Err 5; Got [3;4]] (repeat 0 6) 4 = Ret (Done (-1) [1;2;0;0;0;0]).
Proof. split; reflexivity. Qed.

(** The JavaScript variant: zero only if n bytes were stored. *)
Theorem C37_js_fills_or_reports : forall js buf n, 0 <= n <= zlen buf -> n <= zlen (snd js) ->
  exists c buf', randombytes_js js buf n = Ret (Done c buf') /\
    ((c = 0 /\ fst js = 0 /\ buf' = slice (snd js) 0 n ++ slice buf n (zlen buf - n)) \/ (c <> 0 /\ fst js <> 0 /\ buf' = buf)).
Proof.
  intros [ret bs] buf n Hn Hb. cbn [fst snd] in *. unfold randombytes_js. destruct (Z.eqb_spec ret 0) as [h|h].
  - rewrite copy_ok by lia. cbn [bind]. rewrite slice_0, app_nil_l, Z.add_0_l, Z.sub_0_r. eexists _, _. split; [reflexivity|]. left. repeat split; assumption.
  - destruct ((ret =? -1) || (ret =? -2)); eexists _, _; (split; [reflexivity|]); right; repeat split; lia.
Qed.
Print Assumptions C37_js_fills_or_reports.

(** ** C52: the Windows variant *)
Lemma slice_zeros n o k : 0 <= o -> 0 <= k -> o + k <= n -> slice (zeros n) o k = zeros k.
Proof.
  intros Ho Hk Hn. assert (E: zeros n = zeros o ++ zeros k ++ zeros (n - o - k)) by (unfold zeros; rewrite <- !repeat_app; f_equal; lia).
  rewrite E. rewrite slice_app_r by (rewrite ?zlen_zeros; lia). rewrite zlen_zeros by lia. rewrite Z.sub_diag. rewrite slice_app_l by (rewrite ?zlen_zeros; lia). apply slice_all. rewrite zlen_zeros; lia.
Qed.

(** Requests of at least 2^32 bytes: the size is truncated to 32 bits, the call
    returns 0, and everything behind the first n mod 2^32 bytes is zero. *)
Theorem C52_windows_large_request_refuted : forall f acquire release gs buf n,
  2 ^ 32 <= n <= zlen buf -> (forall k, 0 <= k -> zlen (f k) = k) ->
  exists buf', randombytes_win32 (Some f) acquire release gs buf n = Ret (Done 0 buf') /\ zlen buf' = zlen buf /\
    slice buf' (n mod 2 ^ 32) (n - n mod 2 ^ 32) = zeros (n - n mod 2 ^ 32) /\ 2 ^ 32 <= n - n mod 2 ^ 32.
Proof.
  intros f acquire release gs buf n Hn Hf. unfold randombytes_win32. pose proof (Z.mod_pos_bound n (2 ^ 32) ltac:(reflexivity)) as Hk. change (u32 n) with (n mod 2 ^ 32) in *.
  assert (Hge: 2 ^ 32 <= n - n mod 2 ^ 32). { pose proof (Z.div_mod n (2 ^ 32) ltac:(discriminate)) as D. assert (1 <= n / 2 ^ 32) by (apply Z.div_le_lower_bound; lia). nia. }
  assert (Lz: zlen (zeros n) = n) by (apply zlen_zeros; lia).
  rewrite copy_ok by lia. cbn [bind]. rewrite slice_0, app_nil_l, Z.add_0_l, Z.sub_0_r. rewrite (slice_all (zeros n)) by lia. cbv zeta. set (k := n mod 2 ^ 32) in *. clearbody k.
  assert (Lf: zlen (f k) = k) by (apply Hf; lia). set (rest := slice buf n (zlen buf - n)). assert (Lr: zlen rest = zlen buf - n) by (unfold rest; rewrite zlen_slice; lia).
  rewrite copy_ok by (rewrite ?zlen_app; lia). cbn [bind]. rewrite slice_0, app_nil_l, Z.add_0_l, Z.sub_0_r. rewrite (slice_all (f k)) by lia. eexists. split; [reflexivity|].
  assert (Lt: zlen (slice (zeros n ++ rest) k (zlen (zeros n ++ rest) - k)) = zlen buf - k) by (rewrite zlen_app; rewrite zlen_slice; rewrite ?zlen_app; lia).
  split; [rewrite zlen_app; lia|]. split; [|exact Hge]. rewrite slice_app_r by lia. rewrite Lf, Z.sub_diag. rewrite slice_slice by (rewrite ?zlen_app; lia). rewrite Z.add_0_r. rewrite slice_app_l by lia. apply slice_zeros; lia.
Qed.
Print Assumptions C52_windows_large_request_refuted.

(** Below 2^32 the result is right on both paths. *)
Theorem C52_windows_fills_or_reports_partial : forall bcrypt acquire release gs buf n, 0 <= n < 2 ^ 32 -> n <= zlen buf ->
  (forall f, bcrypt = Some f -> forall k, 0 <= k -> zlen (f k) = k) -> (forall bs, In (Some bs) gs -> n <= zlen bs) ->
  exists res, randombytes_win32 bcrypt acquire release gs buf n = Ret res /\
    match res with
    | Done c buf' => slice buf' n (zlen buf' - n) = slice buf n (zlen buf - n) /\ zlen buf' = zlen buf /\
        (c = 0 -> exists src, slice buf' 0 n = slice src 0 n /\ n <= zlen src /\ ((exists f, bcrypt = Some f /\ src = f n) \/ (exists r, gs = Some src :: r) \/ n = 0))
    | Waiting _ => True
    end.
Proof.
  intros bcrypt acquire release gs buf n Hn Hl Hf Hg. unfold randombytes_win32. assert (Lz: zlen (zeros n) = n) by (apply zlen_zeros; lia).
  rewrite copy_ok by lia. cbn [bind]. rewrite slice_0, app_nil_l, Z.add_0_l, Z.sub_0_r. rewrite (slice_all (zeros n)) by lia.
  set (rest := slice buf n (zlen buf - n)). assert (Lr: zlen rest = zlen buf - n) by (unfold rest; rewrite zlen_slice; lia).
  assert (W: forall src, n <= zlen src -> copy (zeros n ++ rest) 0 src 0 n = Ret (slice src 0 n ++ rest)).
  { intros src Hs. rewrite copy_ok by (rewrite ?zlen_app; lia). rewrite slice_0, app_nil_l, Z.add_0_l, Z.sub_0_r. rewrite zlen_app, Lz. rewrite slice_app_r by lia. rewrite Lz, Z.sub_diag. rewrite (slice_all rest) by lia. reflexivity. }
  assert (Q: forall s, zlen s = n -> slice (s ++ rest) n (zlen (s ++ rest) - n) = rest /\ zlen (s ++ rest) = zlen buf /\ slice (s ++ rest) 0 n = s).
  { intros s Ls. rewrite zlen_app. rewrite slice_app_r by lia. rewrite Ls, Z.sub_diag. split; [apply slice_all; lia|]. split; [lia|]. rewrite slice_app_l by lia. apply slice_all. lia. }
  destruct bcrypt as [f|].
  - cbv zeta. replace (u32 n) with n by (symmetry; apply Z.mod_small; lia). specialize (Hf f eq_refl n ltac:(lia)). rewrite W by lia. cbn [bind]. eexists. split; [reflexivity|]. cbv beta iota.
    rewrite (slice_all (f n)) by lia. destruct (Q (f n) Hf) as (Q1 & Q2 & Q3). split; [exact Q1|]. split; [exact Q2|]. intros _. exists (f n). rewrite Q3. rewrite (slice_all (f n)) by lia. split; [reflexivity|]. split; [lia|]. left. exists f. split; reflexivity.
  - destruct (Q (zeros n) Lz) as (Z1 & Z2 & Z3).
    destruct acquire; cbn [negb]; [|eexists; split; [reflexivity|]; cbv beta iota; split; [exact Z1|]; split; [exact Z2|]; intros; discriminate].
    destruct gs as [|[bs|] gs]; cbn [win32_loop].
    + destruct (Z.leb_spec n 0) as [h|h].
      * cbn [bind]. destruct release; eexists; (split; [reflexivity|]); cbv beta iota; (split; [exact Z1|]); (split; [exact Z2|]); intros E; try discriminate. exists []. assert (n = 0) as -> by lia. rewrite !slice_0. split; [reflexivity|]. split; [reflexivity|]. right; right; reflexivity.
      * cbn [bind]. eexists. split; [reflexivity|]. exact I.
    + destruct (Z.leb_spec n 0) as [h|h].
      * cbn [bind]. destruct release; eexists; (split; [reflexivity|]); cbv beta iota; (split; [exact Z1|]); (split; [exact Z2|]); intros E; try discriminate. exists []. assert (n = 0) as -> by lia. rewrite !slice_0. split; [reflexivity|]. split; [reflexivity|]. right; right; reflexivity.
      * cbv zeta. assert (Lb: n <= zlen bs) by (apply Hg; now left).
        assert (E: (if n <? 0xFFFFFFFF then n else 0xFFFFFFFF) = n) by (destruct (Z.ltb_spec n 0xFFFFFFFF); lia). rewrite E.
        assert (Ls: zlen (slice bs 0 n) = n) by (rewrite zlen_slice; lia). rewrite W by lia. cbn [bind]. rewrite (slice_all (slice bs 0 n)) by lia. rewrite Z.sub_diag.
        destruct (Q (slice bs 0 n) Ls) as (Q1 & Q2 & Q3). assert (EL: forall g b o, win32_loop g b o 0 = Ret (Done 0 b)) by (intros []; reflexivity). rewrite EL. cbn [bind].
        destruct release; eexists; (split; [reflexivity|]); cbv beta iota; (split; [exact Q1|]); (split; [exact Q2|]); intros Ez; try discriminate. exists bs. split; [exact Q3|]. split; [exact Lb|]. right; left. exists gs. reflexivity.
    + destruct (Z.leb_spec n 0) as [h|h].
      * cbn [bind]. destruct release; eexists; (split; [reflexivity|]); cbv beta iota; (split; [exact Z1|]); (split; [exact Z2|]); intros E; try discriminate. exists []. assert (n = 0) as -> by lia. rewrite !slice_0. split; [reflexivity|]. split; [reflexivity|]. right; right; reflexivity.
      * cbn [bind]. eexists. split; [reflexivity|]. cbv beta iota. split; [exact Z1|]. split; [exact Z2|]. intros; discriminate.
Qed.
Print Assumptions C52_windows_fills_or_reports_partial.
Example C52_nonvacuous : (forall k, 0 <= k -> zlen (zeros k) = k) /\ 2 ^ 32 <= 2 ^ 32 + 5 <= zlen (zeros (2 ^ 32 + 5)) /\
  randombytes_win32 None true true [Some [7;8;9]] [0;0;0;0] 3 = Ret (Done 0 [7;8;9;0]).
Proof. split; [intros; apply zlen_zeros; lia|]. split; [rewrite zlen_zeros; lia|reflexivity]. Qed.
