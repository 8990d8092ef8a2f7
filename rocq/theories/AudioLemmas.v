(** Frames, copies, nodes; AudioTrim and AudioReverse. *)
From Coq Require Import ZArith List Bool Lia.
From Verif Require Import Common AudioSpec Audio.
Import ListNotations.
Open Scope Z_scope.

Section L.
Context {A : Type}.
Implicit Types (c : clip A) (s : stream A) (f : aframe A) (dst src b : list (option A)).

Lemma AFS_max : INT_MAX * AFS = 6597069763584.
Proof. reflexivity. Qed.

Lemma w32 : forall x, 0 <= x <= INT_MAX -> wrap32 x = x.
Proof. intros; apply wrap32_id; unfold in_int, INT_MIN; unfold INT_MAX in *; lia. Qed.

Lemma wu64 : forall x, 0 <= x <= INT_MAX -> wrapu64 x = x.
Proof. unfold INT_MAX, wrapu64; intros; apply Z.mod_small; lia. Qed.

Lemma framesFor_val : forall L k, framesFor L k -> k = (L + AFS - 1) / AFS.
Proof.
  unfold framesFor, AFS; intros L k H.
  apply Z.div_unique with (L + 3072 - 1 - 3072 * k); lia.
Qed.

Lemma framesFor_div : forall L, 1 <= L -> framesFor L ((L + AFS - 1) / AFS).
Proof.
  unfold framesFor, AFS; intros L H.
  pose proof (Z.div_mod (L + 3072 - 1) 3072). pose proof (Z.mod_pos_bound (L + 3072 - 1) 3072). lia.
Qed.

Lemma framesFor_bound : forall L k, framesFor L k -> 1 <= L <= INT_MAX * AFS -> 1 <= k <= INT_MAX.
Proof. unfold framesFor; rewrite AFS_max; unfold AFS, INT_MAX in *; lia. Qed.

(** *** Creating a node around a correct frame function *)

Lemma newNode_serves : forall L s (get : Z -> outcome (aframe A)),
  1 <= L <= INT_MAX * AFS ->
  (forall n, 0 <= n -> AFS * n < L -> exists f, get n = Ok f /\ holds L s n f) ->
  exists c', newNode L get = Ok c' /\ serves c' L s.
Proof.
  intros L s get HL HG. unfold newNode.
  destruct (Z.ltb_spec L 1); [lia|]. destruct (Z.ltb_spec (INT_MAX * AFS) L); [lia|].
  eexists; split; [reflexivity|].
  pose proof (framesFor_div L ltac:(lia)) as FF. pose proof (framesFor_bound _ _ FF HL) as FB.
  rewrite Z.quot_div_nonneg by (unfold AFS; lia).
  rewrite w32 by lia.
  unfold serves; cbn [c_samples c_frames c_get].
  split; [reflexivity|]. split; [exact HL|]. split; [exact FF|].
  intros n Hn. unfold framesFor in FF.
  destruct (HG n) as (f & E & HF); [lia|unfold AFS in *; lia|].
  exists f. split; [|exact HF]. rewrite E. cbn [obind]. unfold checkFrame.
  destruct HF as (EL & _). rewrite EL.
  rewrite Z.rem_mod_nonneg by (unfold AFS; lia).
  set (k := (L + AFS - 1) / AFS) in *.
  assert (EX : Z.min AFS (L - AFS * n) = (if n <? k - 1 then AFS else if L mod AFS =? 0 then AFS else L mod AFS)).
  { destruct (Z.ltb_spec n (k - 1)); [unfold AFS in *; lia|].
    assert (n = k - 1) by lia. subst n.
    pose proof (Z.div_mod L AFS). pose proof (Z.mod_pos_bound L AFS).
    unfold AFS in *.
    destruct (Z.eqb_spec (L mod 3072) 0); lia. }
  rewrite EX, Z.eqb_refl. reflexivity.
Qed.

Lemma newNode_samples : forall L (get : Z -> outcome (aframe A)) c', newNode L get = Ok c' -> c_samples c' = L.
Proof.
  intros L get c'. unfold newNode. destruct (L <? 1); [discriminate|].
  destruct (_ <? L); [discriminate|]. intros H; injection H as <-. reflexivity.
Qed.

(** *** Copies *)

(** The first [k] cells of [b] hold the stream from position [base]. *)
Definition filled (b : list (option A)) (k base : Z) (s : stream A) : Prop :=
  zlength b = AFS /\
  forall i, 0 <= i < k -> exists a, nthz b i = Some (Some a) /\ s (base + i) = Some a.

Lemma copyTo_ok : forall dst dOff src sOff cnt,
  zlength dst = AFS -> zlength src = AFS -> 0 <= cnt -> 0 <= dOff -> 0 <= sOff ->
  dOff + cnt <= AFS -> sOff + cnt <= AFS ->
  exists b, copyTo dst dOff src sOff cnt = Ok b /\ zlength b = AFS /\
    (forall i, 0 <= i < dOff -> nthz b i = nthz dst i) /\
    (forall i, 0 <= i < cnt -> nthz b (dOff + i) = nthz src (sOff + i)) /\
    (forall i, dOff + cnt <= i -> nthz b i = nthz dst i).
Proof.
  intros dst dOff src sOff cnt H1 H2 H3 H4 H5 H6 H7. unfold copyTo.
  destruct (Z.ltb_spec cnt 0); [lia|]. destruct (Z.ltb_spec dOff 0); [lia|].
  destruct (Z.ltb_spec sOff 0); [lia|]. destruct (Z.ltb_spec AFS (dOff + cnt)); [lia|].
  destruct (Z.ltb_spec AFS (sOff + cnt)); [lia|]. cbn [orb].
  eexists; split; [reflexivity|].
  assert (Z1 : zlength (firstn (Z.to_nat dOff) dst) = dOff) by (apply zlength_firstn; lia).
  assert (Z2 : zlength (skipn (Z.to_nat sOff) src) = AFS - sOff) by (rewrite zlength_skipn; lia).
  assert (Z3 : zlength (firstn (Z.to_nat cnt) (skipn (Z.to_nat sOff) src)) = cnt)
    by (apply zlength_firstn; lia).
  assert (Z4 : zlength (skipn (Z.to_nat (dOff + cnt)) dst) = AFS - (dOff + cnt))
    by (rewrite zlength_skipn; lia).
  split; [rewrite !zlength_app, Z1, Z3, Z4; lia|].
  split; [|split]; intros i Hi.
  - rewrite nthz_app1 by lia. apply nthz_firstn; lia.
  - rewrite nthz_app2 by lia. rewrite nthz_app1 by lia.
    rewrite nthz_firstn by lia. rewrite nthz_skipn by lia. f_equal; lia.
  - rewrite nthz_app2 by lia. rewrite nthz_app2 by lia.
    rewrite nthz_skipn by lia. f_equal; lia.
Qed.

(** Appending the right cells to a filled prefix. *)
Lemma copyTo_fill : forall dst k base s src sOff cnt,
  filled dst k base s -> zlength src = AFS -> 0 <= k -> 0 <= cnt -> 0 <= sOff ->
  k + cnt <= AFS -> sOff + cnt <= AFS ->
  (forall i, 0 <= i < cnt -> exists a, nthz src (sOff + i) = Some (Some a) /\ s (base + k + i) = Some a) ->
  exists b, copyTo dst k src sOff cnt = Ok b /\ filled b (k + cnt) base s.
Proof.
  intros dst k base s src sOff cnt (F1 & F2) H2 H3 H4 H5 H6 H7 HS.
  destruct (copyTo_ok dst k src sOff cnt) as (b & E & B1 & B2 & B3 & _); try lia; auto.
  exists b; split; auto. split; auto.
  intros i Hi. destruct (Z.ltb_spec i k).
  - rewrite B2 by lia. apply F2; lia.
  - destruct (HS (i - k)) as (a & X & Y); [lia|]. exists a.
    replace i with (k + (i - k)) at 1 by lia. rewrite B3 by lia. split; auto.
    rewrite <- Y. f_equal; lia.
Qed.

Lemma newFrame_ok : forall len, 0 < len -> newFrame len = Ok (mkAF (A:=A) len (repeat None (Z.to_nat AFS))).
Proof. intros; unfold newFrame. destruct (Z.leb_spec len 0); [lia|reflexivity]. Qed.

Lemma empty_filled : forall base s, filled (repeat None (Z.to_nat AFS)) 0 base s.
Proof.
  intros; split; [|intros; lia]. unfold zlength. rewrite repeat_length, Z2Nat.id; [reflexivity|unfold AFS; lia].
Qed.

Lemma filled_holds : forall L s n b len, len = Z.min AFS (L - AFS * n) ->
  filled b len (AFS * n) s -> holds L s n (mkAF len b).
Proof. intros L s n b len E (H1 & H2). split; [exact E|]. split; [exact H1|]. exact H2. Qed.

(** *** Requested frames are available *)

Lemma keyEqb_refl : forall k, keyEqb k k = true.
Proof. intros [i n]; unfold keyEqb; cbn [fst snd]. rewrite Nat.eqb_refl, Z.eqb_refl; reflexivity. Qed.

Lemma getFilter_ok : forall (clips : list (clip A)) av i n c,
  nth_error clips i = Some c -> 0 <= n < c_frames c -> In (i, n) av ->
  getFilter clips av i n = c_get c n.
Proof.
  intros clips av i n c E H I. unfold getFilter, clampN. rewrite E.
  destruct (Z.leb_spec (c_frames c) n); [lia|].
  replace (existsb (keyEqb (i, n)) av) with true; [reflexivity|].
  symmetry. apply existsb_exists. exists (i, n). split; [exact I|apply keyEqb_refl].
Qed.

Lemma requests_ok : forall (clips : list (clip A)) l,
  (forall i n, In (i, n) l -> exists c, nth_error clips i = Some c /\ 0 <= n < c_frames c) ->
  requests clips l = Ok l.
Proof.
  intros clips; induction l as [|[i n] l IH]; intros H; [reflexivity|].
  cbn [requests]. destruct (H i n) as (c & E & R); [left; reflexivity|]. rewrite E.
  destruct (Z.ltb_spec n 0); [lia|]. rewrite IH by (intros; apply H; right; assumption).
  cbn [obind]. unfold clampN. destruct (Z.leb_spec (c_frames c) n); [lia|reflexivity].
Qed.

Lemma serves_frame : forall c L s n, serves c L s -> 0 <= n -> AFS * n < L ->
  0 <= n < c_frames c /\ exists f, c_get c n = Ok f /\ holds L s n f.
Proof.
  intros c L s n (E & B & FF & H) Hn HL.
  assert (0 <= n < c_frames c) by (unfold framesFor, AFS in *; lia). auto.
Qed.

(** *** AudioTrim *)

Lemma trim_get : forall c L s first tl n, serves c L s ->
  0 <= first -> 1 <= tl -> first + tl <= L -> 0 <= n -> AFS * n < tl ->
  exists f, runFilter [c] (Ok (trimRequests first tl (c_frames c) n))
              (trimReady c first tl (c_frames c) n) = Ok f /\ holds tl (trimmed s first) n f.
Proof.
  intros c L s first tl n SV H1 H2 H3 H4 H5.
  pose proof SV as (EL & BL & FF & _).
  pose proof (framesFor_bound _ _ FF BL) as FB.
  unfold runFilter. cbn [obind].
  set (ss := n * AFS + first). set (len := wrap32 (Z.min (tl - n * AFS) AFS)).
  assert (ES : wrap32 (Z.quot ss AFS) = ss / AFS).
  { rewrite Z.quot_div_nonneg by (unfold ss, AFS; lia). apply w32.
    unfold framesFor in FF. split; [apply Z.div_pos; unfold ss, AFS; lia|].
    apply Z.div_le_upper_bound; [unfold AFS; lia|]. unfold ss, AFS in *; lia. }
  assert (ER : Z.rem ss AFS = ss mod AFS) by (apply Z.rem_mod_nonneg; unfold ss, AFS; lia).
  assert (EN : len = Z.min AFS (tl - AFS * n)).
  { unfold len. rewrite w32; unfold AFS, INT_MAX in *; lia. }
  pose proof (Z.div_mod ss AFS ltac:(unfold AFS; lia)) as DM.
  pose proof (Z.mod_pos_bound ss AFS ltac:(unfold AFS; lia)) as MB.
  set (q := ss / AFS) in *. set (r := ss mod AFS) in *.
  assert (Q0 : 0 <= q) by (apply Z.div_pos; unfold ss, AFS; lia).
  assert (Q1 : AFS * q < L) by (unfold ss, AFS in *; lia).
  destruct (serves_frame c L s q SV Q0 Q1) as (R1 & f1 & G1 & HF1).
  unfold trimRequests, trimReady. fold ss. rewrite ES. fold len. rewrite ER. rewrite EN. clear len EN.
  set (len := Z.min AFS (tl - AFS * n)) in *.
  assert (LB : 0 < len <= AFS) by (unfold len, AFS in *; lia).
  destruct HF1 as (E1 & B1 & C1).
  destruct ((r =? 0) && negb (n =? c_frames c - 1)) eqn:PT.
  - apply andb_prop in PT as [PT _]. apply Z.eqb_eq in PT.
    rewrite requests_ok.
    2:{ intros i m [X|[]]; injection X as <- <-. exists c; split; [reflexivity|lia]. }
    cbn [obind]. rewrite (getFilter_ok _ _ O q c) by (try reflexivity; try lia; left; reflexivity).
    rewrite G1. cbn [obind].
    assert (LE : len <= af_len f1) by (rewrite E1; unfold len, ss, AFS in *; lia).
    destruct (Z.eqb_spec len (af_len f1)) as [EE|NE].
    + exists f1; split; [reflexivity|]. split; [rewrite <- EE; reflexivity|]. split; [exact B1|].
      intros i Hi. destruct (C1 i Hi) as (a & X & Y). exists a; split; [exact X|].
      unfold trimmed. rewrite <- Y. f_equal. unfold ss in *. lia.
    + rewrite newFrame_ok by lia. cbn [obind af_buf].
      destruct (copyTo_fill (repeat None (Z.to_nat AFS)) 0 (AFS * n) (trimmed s first) (af_buf f1) 0 len)
        as (b & E & HB); try lia; auto using empty_filled.
      { intros i Hi. destruct (C1 i) as (a & X & Y); [lia|]. exists a. split; [exact X|].
        unfold trimmed. rewrite <- Y. f_equal. unfold ss in *. lia. }
      rewrite E. cbn [obind]. eexists; split; [reflexivity|]. apply filled_holds; [reflexivity|]. exact HB.
  - set (num1 := AFS - r) in *.
    set (av := (O, q) :: (if num1 <? len then [(O, q + 1)] else [])).
    assert (Q2 : num1 < len -> AFS * (q + 1) < L) by (unfold num1, len, ss, AFS in *; lia).
    rewrite requests_ok.
    2:{ intros i m [X|X]; [injection X as <- <-; exists c; split; [reflexivity|lia]|].
        destruct (Z.ltb_spec num1 len); [|contradiction]. destruct X as [X|[]]. injection X as <- <-.
        exists c; split; [reflexivity|].
        destruct (serves_frame c L s (q + 1) SV) as (R2 & _); auto; lia. }
    cbn [obind]. fold av.
    rewrite (getFilter_ok _ _ O q c) by (try reflexivity; try lia; left; reflexivity).
    rewrite G1. cbn [obind]. rewrite newFrame_ok by lia. cbn [obind af_buf].
    destruct (copyTo_ok (repeat None (Z.to_nat AFS)) 0 (af_buf f1) (AFS - num1) num1)
      as (b & E & B2 & _ & B3 & _); try (unfold num1, AFS in *; lia).
    { unfold zlength; rewrite repeat_length; reflexivity. }
    rewrite E. cbn [obind].
    assert (FL : filled b (Z.min num1 len) (AFS * n) (trimmed s first)).
    { split; [exact B2|]. intros i Hi.
      destruct (C1 (AFS - num1 + i)) as (a & X & Y).
      { rewrite E1. unfold num1, len, ss, AFS in *; lia. }
      exists a. rewrite <- (B3 i) in X by lia. split; [exact X|].
      unfold trimmed. rewrite <- Y. f_equal. unfold num1, ss, AFS in *; lia. }
    destruct (Z.ltb_spec num1 len) as [LT|GE].
    + destruct (serves_frame c L s (q + 1) SV) as (R2 & f2 & G2 & HF2); [lia|auto|].
      rewrite (getFilter_ok _ _ O (q + 1) c) by (try reflexivity; try lia; right; left; reflexivity).
      rewrite G2. cbn [obind]. destruct HF2 as (E2 & B4 & C2).
      destruct (copyTo_fill b num1 (AFS * n) (trimmed s first) (af_buf f2) 0 (len - num1))
        as (b' & E' & HB); try (unfold num1, AFS in *; lia).
      { rewrite Z.min_l in FL by lia. exact FL. }
      { intros i Hi. destruct (C2 i) as (a & X & Y).
        { rewrite E2. unfold num1, len, ss, AFS in *; lia. }
        exists a. split; [exact X|]. unfold trimmed. rewrite <- Y. f_equal. unfold num1, ss, AFS in *; lia. }
      rewrite E'. cbn [obind]. eexists; split; [reflexivity|]. apply filled_holds; [reflexivity|].
      replace (num1 + (len - num1)) with len in HB by lia. exact HB.
    + eexists; split; [reflexivity|]. apply filled_holds; [reflexivity|].
      rewrite Z.min_r in FL by lia. exact FL.
Qed.

Lemma serves_ext : forall c L s s', serves c L s -> (forall i, 0 <= i < L -> s i = s' i) -> serves c L s'.
Proof.
  intros c L s s' (E & B & FF & H) X. split; [exact E|]. split; [exact B|]. split; [exact FF|].
  intros n Hn. destruct (H n Hn) as (f & G & F1 & F2 & F3). exists f; split; [exact G|].
  split; [exact F1|]. split; [exact F2|].
  intros i Hi. destruct (F3 i Hi) as (a & Y & Z). exists a; split; [exact Y|].
  rewrite <- X; [exact Z|]. rewrite F1 in Hi. unfold framesFor, AFS in *; lia.
Qed.

(** 64 bit arguments; the sum first + length must not overflow. *)
Lemma trim_correct : forall c L s first last len, serves c L s ->
  (forall n, len = Some n -> match first with Some x => x | None => 0 end + n <= INT64_MAX) ->
  match trimWish L first last len with
  | Some (f, n) => exists c', audioTrim c first last len = Ok c' /\ serves c' n (trimmed s f)
  | None => audioTrim c first last len = Err
  end.
Proof.
  intros c L s first last len SV HO. pose proof SV as (EL & BL & _).
  unfold audioTrim, trimWish. rewrite EL.
  set (fi := match first with Some x => x | None => 0 end) in *.
  assert (PASS : forall n, 0 <= fi -> fi + n <= L -> n = L -> serves c n (trimmed s fi)).
  { intros n P1 P2 ->. assert (fi = 0) by lia. eapply serves_ext; [exact SV|].
    intros i _. unfold trimmed. f_equal; lia. }
  assert (NODE : forall n, 0 <= fi -> 1 <= n -> fi + n <= L ->
    exists c', newNode n (fun m => runFilter [c] (Ok (trimRequests fi n (c_frames c) m))
        (trimReady c fi n (c_frames c) m)) = Ok c' /\ serves c' n (trimmed s fi)).
  { intros n P0 P1 P2. apply newNode_serves; [lia|]. intros m M1 M2. eapply trim_get; eauto. }
  destruct last as [la|], len as [le|]; cbn [andb orb negb].
  - destruct (fi <? 0); [reflexivity|]. destruct (L <=? fi); reflexivity.
  - destruct (Z.ltb_spec fi 0).
    { destruct (Z.leb_spec 0 fi); [lia|reflexivity]. }
    destruct (Z.leb_spec L fi); destruct (Z.leb_spec 0 fi); try lia; cbn [andb].
    { destruct (Z.leb_spec 1 (la - fi + 1)); [|reflexivity].
      destruct (Z.leb_spec (fi + (la - fi + 1)) L); [lia|reflexivity]. }
    destruct (Z.ltb_spec la fi).
    { destruct (Z.leb_spec 1 (la - fi + 1)); [lia|reflexivity]. }
    destruct (Z.leb_spec 1 (la - fi + 1)); [|lia].
    destruct (Z.leb_spec L la).
    { destruct (Z.leb_spec (fi + (la - fi + 1)) L); [lia|reflexivity]. }
    destruct (Z.leb_spec (fi + (la - fi + 1)) L); [|lia]. cbn [andb].
    rewrite !andb_false_r. cbn [orb].
    destruct (Z.eqb_spec (la - fi + 1) L) as [EE|NE].
    + destruct (Z.eqb_spec (la - fi + 1) 0); [lia|]. cbn [negb andb].
      exists c; split; [reflexivity|]. apply PASS; lia.
    + rewrite andb_false_r. apply NODE; lia.
  - specialize (HO le eq_refl). destruct (Z.ltb_spec fi 0).
    { destruct (Z.leb_spec 0 fi); [lia|reflexivity]. }
    destruct (Z.leb_spec L fi); destruct (Z.leb_spec 0 fi); try lia; cbn [andb].
    { destruct (Z.leb_spec 1 le); [|reflexivity].
      destruct (Z.leb_spec (fi + le) L); [lia|reflexivity]. }
    destruct (Z.ltb_spec le 1).
    { destruct (Z.leb_spec 1 le); [lia|reflexivity]. }
    destruct (Z.leb_spec 1 le); [|lia].
    replace (in_int64b (fi + le)) with true.
    2:{ symmetry. apply in_int64b_spec. unfold in_int64, INT64_MIN, INT64_MAX in *. lia. }
    cbn [negb andb].
    destruct (Z.ltb_spec L (fi + le)).
    { destruct (Z.leb_spec (fi + le) L); [lia|reflexivity]. }
    destruct (Z.leb_spec (fi + le) L); [|lia].
    rewrite !andb_false_r. cbn [orb].
    destruct (Z.eqb_spec le L) as [EE|NE].
    + destruct (Z.eqb_spec le 0); [lia|]. cbn [negb andb].
      exists c; split; [reflexivity|]. apply PASS; lia.
    + rewrite andb_false_r. apply NODE; lia.
  - clear HO. destruct (Z.ltb_spec fi 0).
    { destruct (Z.leb_spec 0 fi); [lia|reflexivity]. }
    destruct (Z.leb_spec L fi); destruct (Z.leb_spec 0 fi); try lia; cbn [andb].
    { destruct (Z.leb_spec 1 (L - fi)); [lia|reflexivity]. }
    destruct (Z.leb_spec 1 (L - fi)); [|lia].
    destruct (Z.leb_spec (fi + (L - fi)) L); [|lia]. cbn [andb].
    destruct (negb (match first with Some _ => true | None => false end) && true && true) eqn:NF.
    + cbn [orb]. exists c; split; [reflexivity|]. destruct first; [discriminate|].
      apply PASS; unfold fi; lia.
    + cbn [orb]. destruct (Z.eqb_spec (L - fi) L) as [EE|NE].
      * destruct (Z.eqb_spec (L - fi) 0); [lia|]. cbn [negb andb].
        exists c; split; [reflexivity|]. apply PASS; lia.
      * rewrite andb_false_r. apply NODE; lia.
Qed.

(** Without that hypothesis the check itself overflows. *)
Lemma trim_overflow : forall c, 2 <= c_samples c ->
  exists first len, in_int64 first /\ in_int64 len /\
    audioTrim c (Some first) None (Some len) = UB.
Proof.
  intros c H. exists 1, INT64_MAX. split; [unfold in_int64, INT64_MIN, INT64_MAX; lia|].
  split; [unfold in_int64, INT64_MIN, INT64_MAX; lia|].
  unfold audioTrim. cbn [andb]. change (1 <? 0) with false.
  destruct (Z.leb_spec (c_samples c) 1); [lia|]. reflexivity.
Qed.

(** *** AudioReverse *)

Lemma revLoop_ok : forall k (src : list (option A)) top i,
  0 <= i -> zlength src = AFS -> top <= AFS -> i + Z.of_nat k <= top ->
  exists r, revLoop k src top i = Ok r /\ zlength r = Z.of_nat k /\
    forall j, 0 <= j < Z.of_nat k -> nthz r j = nthz src (top - 1 - (i + j)).
Proof.
  induction k as [|k IH]; intros src top i H1 H2 H3 H4.
  - exists []. split; [reflexivity|]. split; [reflexivity|]. intros; lia.
  - cbn [revLoop]. unfold getCell.
    assert (EW : wrapu64 (top - i - 1) = top - i - 1) by (apply wu64; unfold AFS, INT_MAX in *; lia).
    rewrite EW. destruct (proj2 (nthz_Some_iff _ src (top - i - 1))) as (x & X); [lia|].
    rewrite X. cbn [obind].
    destruct (IH src top (i + 1)) as (r & E & R1 & R2); try lia. rewrite E. cbn [obind].
    exists (x :: r). split; [reflexivity|]. split; [rewrite zlength_cons; lia|].
    intros j Hj. destruct (Z.eqb_spec j 0) as [->|NE].
    + rewrite nthz_cons_0, <- X. f_equal; lia.
    + rewrite nthz_cons_S by lia. rewrite R2 by lia. f_equal; lia.
Qed.

Lemma revCopy_fill : forall dst k base s (src : list (option A)) top cnt,
  filled dst k base s -> zlength src = AFS -> 0 <= k -> 0 <= cnt -> cnt <= top -> top <= AFS ->
  k + cnt <= AFS ->
  (forall i, 0 <= i < cnt -> exists a, nthz src (top - 1 - i) = Some (Some a) /\ s (base + k + i) = Some a) ->
  exists b, revCopy dst k src top cnt = Ok b /\ filled b (k + cnt) base s.
Proof.
  intros dst k base s src top cnt FL H1 H2 H3 H4 H5 H6 HS. unfold revCopy.
  destruct (Z.ltb_spec AFS (k + cnt)); [lia|].
  destruct (revLoop_ok (Z.to_nat cnt) src top 0) as (r & E & R1 & R2); try lia.
  rewrite E. cbn [obind]. apply copyTo_fill; auto; try lia.
  - rewrite zlength_app, R1. unfold zlength. rewrite repeat_length. lia.
  - intros i Hi. rewrite nthz_app1 by lia. rewrite R2 by lia. apply HS. lia.
Qed.

Lemma reverse_get : forall c L s n, serves c L s -> 0 <= n -> AFS * n < L ->
  exists f, runFilter [c] (Ok (reverseRequests L (c_frames c) n))
              (reverseReady c L (c_frames c) n) = Ok f /\ holds L (reversed s L) n f.
Proof.
  intros c L s n SV H1 H2. pose proof SV as (EL & BL & FF & _).
  pose proof (framesFor_bound _ _ FF BL) as FB. pose proof (framesFor_val _ _ FF) as FV.
  set (nf := c_frames c) in *. unfold framesFor in FF.
  assert (NF : 0 <= n < nf) by (unfold AFS in *; lia).
  unfold runFilter. cbn [obind]. unfold reverseRequests, reverseReady.
  rewrite Z.rem_mod_nonneg by (unfold AFS; lia).
  pose proof (Z.div_mod L AFS ltac:(unfold AFS; lia)) as DM.
  pose proof (Z.mod_pos_bound L AFS ltac:(unfold AFS; lia)) as MB.
  set (r := L mod AFS) in *. set (q := L / AFS) in *.
  set (n1 := nf - 1 - n). set (n2 := Z.max (nf - 2 - n) 0).
  destruct (serves_frame c L s n1 SV) as (R1 & f1 & G1 & E1 & B1 & C1); [unfold n1; lia|unfold n1, AFS in *; lia|].
  destruct (serves_frame c L s n2 SV) as (R2 & f2 & G2 & E2 & B2 & C2); [unfold n2; lia|unfold n2, AFS in *; lia|].
  fold nf in R1, R2.
  set (av := (O, n1) :: (if r =? 0 then [] else [(O, n2)])).
  rewrite requests_ok.
  2:{ intros i m [X|X]; [injection X as <- <-; exists c; split; [reflexivity|exact R1]|].
      destruct (r =? 0); [contradiction|]. destruct X as [X|[]]. injection X as <- <-.
      exists c; split; [reflexivity|exact R2]. }
  cbn [obind]. fold av.
  rewrite (getFilter_ok _ _ O n1 c) by (try reflexivity; try exact R1; left; reflexivity).
  rewrite G1. cbn [obind].
  set (len := Z.min AFS (L - AFS * n)).
  replace (wrap32 (Z.min AFS (L - n * AFS))) with len.
  2:{ unfold len. rewrite w32; unfold AFS, INT_MAX in *; lia. }
  assert (LB : 0 < len <= AFS) by (unfold len, AFS in *; lia).
  assert (L1B : 0 < af_len f1 <= AFS) by (rewrite E1; unfold n1, AFS in *; lia).
  rewrite (wu64 (af_len f1)) by (unfold AFS, INT_MAX in *; lia).
  assert (O1 : af_len f1 - r >= 0) by (rewrite E1; unfold n1, AFS in *; lia).
  rewrite (wu64 (af_len f1 - r)) by (unfold AFS, INT_MAX in *; lia).
  set (s1 := if r =? 0 then AFS else r).
  assert (OFF : (if af_len f1 - r =? AFS then 0 else af_len f1 - r) = af_len f1 - s1).
  { unfold s1. destruct (Z.eqb_spec (af_len f1 - r) AFS); destruct (Z.eqb_spec r 0);
      try (rewrite E1 in *; unfold n1, AFS in *; lia). }
  rewrite OFF.
  assert (S1B : 0 < s1 <= AFS) by (unfold s1; destruct (Z.eqb_spec r 0); unfold AFS in *; lia).
  assert (S1L : s1 <= len).
  { unfold s1, len. destruct (Z.eqb_spec r 0); unfold AFS in *; lia. }
  assert (S1F : s1 <= af_len f1).
  { unfold s1. rewrite E1. destruct (Z.eqb_spec r 0); unfold n1, AFS in *; lia. }
  replace (af_len f1 - (af_len f1 - s1)) with s1 by lia.
  rewrite (wu64 s1) by (unfold AFS, INT_MAX in *; lia).
  rewrite newFrame_ok by lia. cbn [obind af_buf].
  destruct (revCopy_fill (repeat None (Z.to_nat AFS)) 0 (AFS * n) (reversed s L) (af_buf f1) s1 s1)
    as (b & E & HB); auto using empty_filled; try lia.
  { intros i Hi. destruct (C1 (s1 - 1 - i)) as (a & X & Y); [lia|]. exists a; split; [exact X|].
    unfold reversed. rewrite <- Y. f_equal.
    unfold s1, n1 in *. destruct (Z.eqb_spec r 0); unfold AFS in *; lia. }
  rewrite E. cbn [obind]. rewrite (wu64 (len - s1)) by (unfold AFS, INT_MAX in *; lia).
  destruct (Z.ltb_spec 0 (len - s1)) as [LT|GE].
  - assert (RN : r <> 0).
    { intros RZ. unfold s1 in *. rewrite RZ in LT. cbn in LT. lia. }
    assert (n2 = nf - 2 - n).
    { unfold n2. destruct (Z.eq_dec n (nf - 1)); [|lia]. exfalso. subst n.
      unfold s1, len in *. destruct (Z.eqb_spec r 0); [lia|]. unfold AFS in *; lia. }
    rewrite (getFilter_ok _ _ O n2 c).
    2:{ reflexivity. } 2:{ exact R2. }
    2:{ unfold av. destruct (Z.eqb_spec r 0); [lia|]. right; left; reflexivity. }
    rewrite G2. cbn [obind].
    assert (L2 : af_len f2 = AFS) by (rewrite E2; unfold AFS in *; lia).
    rewrite L2. rewrite (wu64 AFS) by (unfold AFS, INT_MAX; lia).
    destruct (revCopy_fill b s1 (AFS * n) (reversed s L) (af_buf f2) AFS (len - s1))
      as (b' & E' & HB'); auto; try lia.
    { intros i Hi. destruct (C2 (AFS - 1 - i)) as (a & X & Y); [lia|]. exists a; split; [exact X|].
      unfold reversed. rewrite <- Y. f_equal.
      unfold s1 in *. destruct (Z.eqb_spec r 0); [lia|]. unfold AFS in *; lia. }
    rewrite E'. cbn [obind]. eexists; split; [reflexivity|]. apply filled_holds; [reflexivity|].
    replace (s1 + (len - s1)) with len in HB' by lia. exact HB'.
  - eexists; split; [reflexivity|]. apply filled_holds; [reflexivity|].
    replace (0 + s1) with len in HB by lia. exact HB.
Qed.

Lemma reverse_correct : forall c L s, serves c L s ->
  exists c', audioReverse c = Ok c' /\ serves c' L (reversed s L).
Proof.
  intros c L s SV. pose proof SV as (EL & BL & _). unfold audioReverse. rewrite EL.
  apply newNode_serves; [exact BL|]. intros n H1 H2. apply reverse_get; auto.
Qed.

Lemma reverse_twice : forall c L s, serves c L s ->
  exists c' c'', audioReverse c = Ok c' /\ audioReverse c' = Ok c'' /\ serves c'' L s.
Proof.
  intros c L s SV. destruct (reverse_correct _ _ _ SV) as (c' & E & S1).
  destruct (reverse_correct _ _ _ S1) as (c'' & E2 & S2).
  exists c', c''. split; [exact E|]. split; [exact E2|].
  eapply serves_ext; [exact S2|]. intros i Hi. unfold reversed. f_equal; lia.
Qed.

Lemma serves_lengths : forall (c : clip A) L s n f, serves c L s -> 0 <= n < c_frames c -> c_get c n = Ok f ->
  af_len f = Z.min AFS (L - AFS * n) /\ 1 <= af_len f <= AFS /\ c_frames c = (L + AFS - 1) / AFS.
Proof.
  intros c L s n f (_ & BL & FF & H) Hn E. destruct (H n Hn) as (f' & E' & X & _).
  assert (f' = f) by congruence. subst f'. split; [exact X|]. split; [|apply framesFor_val; exact FF].
  rewrite X. unfold framesFor, AFS in *. lia.
Qed.

End L.
