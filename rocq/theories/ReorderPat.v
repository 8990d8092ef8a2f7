(** Request pattern honesty of the reordering filters. *)
From Coq Require Import ZArith List Lia Bool Permutation Sorting.Sorted.
From Verif Require Import Common ReqPat Reorder ReorderSpec ReorderLemmas ReorderLemmas2.
Require Import ZifyBool.
Import ListNotations.
Open Scope Z_scope.

Lemma trim_honest : forall N first last len f,
  0 < N <= INT_MAX -> trimCreate N first last len = CFilter f ->
  honest (f_rp f) N (f_len f) (fun n j => f_src f n = j).
Proof.
  intros N first last len f HN. unfold trimCreate.
  set (fst := argd first). set (lst := argd last). set (ln := argd len).
  destruct (Z.ltb_spec fst 0); [discriminate|].
  destruct (Z.leb_spec N fst); [discriminate|].
  destruct (isset last && isset len); [discriminate|].
  destruct (isset last && (lst <? fst)) eqn:E1; [discriminate|].
  destruct (isset len && (ln <? 1)) eqn:E2; [discriminate|].
  destruct ((isset last && (N <=? lst)) || (isset len && (N - fst <? ln))) eqn:E3; [discriminate|].
  match goal with |- context [if ?c then CPass else _] => destruct c; [discriminate|] end.
  intros E; inversion E; subst f; clear E. cbn [f_rp f_len f_src].
  set (tl := if isset last then lst - fst + 1 else if isset len then ln else N - fst).
  assert (Htl : fst + tl <= N).
  { unfold tl. destruct (isset last); [|destruct (isset len)]; lia. }
  destruct (Z.eqb_spec fst 0) as [E0|E0]; cbn [honest].
  - intros n Hn. split; [lia|]. intros j. lia.
  - split; intros; lia.
Qed.

Lemma reverse_honest : forall N f,
  0 < N -> reverseCreate N = CFilter f ->
  honest (f_rp f) N (f_len f) (fun n j => f_src f n = j).
Proof.
  intros N f HN E; inversion E; subst; cbn [f_rp f_len f_src honest]. split; intros; lia.
Qed.

Lemma nth0_inj : forall l i j, NoDup l -> 0 <= i < zlength l -> 0 <= j < zlength l ->
  nth0 l i = nth0 l j -> i = j.
Proof.
  intros l i j Hn Hi Hj H. unfold nth0 in H. unfold zlength in *.
  assert (Z.to_nat i = Z.to_nat j); [|lia].
  apply (proj1 (NoDup_nth l 0) Hn); auto; lia.
Qed.

Lemma has_dup_false : forall l, has_dup l = false -> NoDup l.
Proof.
  induction l as [|a t IH]; cbn [has_dup]; intros H; constructor.
  - apply orb_false_iff in H. apply existsb_eqb_notIn. tauto.
  - apply IH. apply orb_false_iff in H. tauto.
Qed.

Lemma nth0_In : forall l i, 0 <= i < zlength l -> In (nth0 l i) l.
Proof. intros. unfold nth0, zlength in *. apply nth_In. lia. Qed.

Lemma NoDup_filter' : forall A (f : A -> bool) l, NoDup l -> NoDup (filter f l).
Proof.
  induction 1; simpl; [constructor|]. destruct (f x); auto. constructor; auto.
  intro Hin. apply filter_In in Hin. tauto.
Qed.

Lemma selectEvery_honest : forall N cycle offsets f,
  0 < N <= INT_MAX -> offsets <> [] -> selectEveryCreate N cycle offsets = CFilter f ->
  honest (f_rp f) N (f_len f) (fun n j => f_src f n = j).
Proof.
  intros N acycle aoffsets f HN Hne. unfold selectEveryCreate.
  set (cycle := sat32 acycle). set (offsets := map sat32 aoffsets).
  destruct (Z.leb_spec cycle 1); [discriminate|].
  destruct (forallb _ offsets) eqn:Hall; [|discriminate]. cbn [negb].
  set (tail := filter (fun o => o <? N mod cycle) offsets).
  set (num := zlength offsets).
  destruct (Z.ltb_spec INT_MAX (N / cycle * num + zlength tail)); [discriminate|].
  destruct (Z.eqb_spec (N / cycle * num + zlength tail) 0); [discriminate|].
  intros E; inversion E; subst f; clear E. cbn [f_rp f_len f_src].
  destruct (has_dup offsets) eqn:Hd; cbn [honest]; [exact I|].
  apply has_dup_false in Hd.
  assert (Hnum : 0 < num).
  { unfold num, offsets. rewrite zlength_map. destruct aoffsets; [contradiction|]. rewrite zlength_cons.
    pose proof (zlength_nonneg _ aoffsets). lia. }
  assert (Htl : zlength tail <= num).
  { unfold tail, num, zlength. clear. induction offsets; simpl; [lia|].
    destruct (a <? N mod cycle); simpl; lia. }
  pose proof (Z.div_pos N cycle ltac:(lia) ltac:(lia)) as Hq0.
  pose proof (Z.div_mod N cycle ltac:(lia)) as Hdm.
  assert (Hoff : forall o, In o offsets -> 0 <= o < cycle).
  { rewrite forallb_forall in Hall. intros o Ho. specialize (Hall o Ho). lia. }
  assert (Htail : forall o, In o tail -> 0 <= o < N mod cycle).
  { intros o Ho. unfold tail in Ho. apply filter_In in Ho. destruct Ho as [Ho Hl].
    specialize (Hoff o Ho). lia. }
  (* describe the source of n *)
  assert (Hsrc : forall n, 0 <= n < N / cycle * num + zlength tail ->
    exists c o, (if n / num =? N / cycle then n / num * cycle + nth0 tail (n mod num)
                 else n / num * cycle + nth0 offsets (n mod num)) = c * cycle + o /\
      0 <= o < cycle /\ c = n / num /\ 0 <= c * cycle + o < N /\
      (c = N / cycle -> o = nth0 tail (n mod num) /\ n mod num < zlength tail) /\
      (c <> N / cycle -> o = nth0 offsets (n mod num))).
  { intros n0 Hn. pose proof (Z.div_pos n0 num ltac:(lia) ltac:(lia)).
    pose proof (Z.mod_pos_bound n0 num ltac:(lia)).
    pose proof (Z.div_mod n0 num ltac:(lia)) as Hnd.
    destruct (Z.eqb_spec (n0 / num) (N / cycle)) as [Eq|Nq].
    - assert (Hmt : n0 mod num < zlength tail) by nia.
      pose proof (Htail _ (nth0_In tail (n0 mod num) ltac:(lia))).
      exists (n0 / num), (nth0 tail (n0 mod num)).
      pose proof (Z.mod_pos_bound N cycle ltac:(lia)).
      split; [reflexivity|]. split; [lia|]. split; [reflexivity|]. split; [nia|]. split; [auto|lia].
    - assert (n0 / num < N / cycle).
      { assert (n0 / num <= N / cycle); [|lia].
        destruct (Z.leb_spec (n0 / num) (N / cycle)); auto. exfalso.
        assert ((N / cycle + 1) * num <= n0 / num * num) by nia. nia. }
      pose proof (Hoff _ (nth0_In offsets (n0 mod num) ltac:(fold num; lia))).
      exists (n0 / num), (nth0 offsets (n0 mod num)).
      split; [reflexivity|]. split; [lia|]. split; [reflexivity|]. split; [|split; [lia|auto]].
      assert ((n0 / num + 1) * cycle <= N / cycle * cycle) by (apply Z.mul_le_mono_nonneg_r; lia).
      pose proof (Z.mod_pos_bound N cycle ltac:(lia)).
      assert (0 <= n0 / num * cycle) by (apply Z.mul_nonneg_nonneg; lia). lia. }
  split.
  - intros n0 j Hn Hj. destruct (Hsrc n0 Hn) as [c [o [E [_ [_ [Hr _]]]]]]. lia.
  - intros n0 m j Hn Hm Hjn Hjm.
    destruct (Hsrc n0 Hn) as [c [o [E [Ho [Hc [_ [Ht Hf]]]]]]].
    destruct (Hsrc m Hm) as [c' [o' [E' [Ho' [Hc' [_ [Ht' Hf']]]]]]].
    rewrite E in Hjn. rewrite E' in Hjm.
    assert (c = c') by nia. assert (o = o') by nia. assert (Hcm : c' = c) by lia. rewrite Hcm in *.
    pose proof (Z.mod_pos_bound n0 num ltac:(lia)). pose proof (Z.mod_pos_bound m num ltac:(lia)).
    assert (n0 mod num = m mod num).
    { destruct (Z.eq_dec c (N / cycle)) as [Ec|Ec].
      - destruct (Ht Ec) as [T1 T2]. destruct (Ht' Ec) as [T1' T2'].
        apply (nth0_inj tail); try lia. apply NoDup_filter'; auto.
      - specialize (Hf Ec). specialize (Hf' Ec). apply (nth0_inj offsets); try (fold num; lia). auto. }
    pose proof (Z.div_mod n0 num ltac:(lia)). pose proof (Z.div_mod m num ltac:(lia)). nia.
Qed.

Lemma del_src_mono : forall s n m, StronglySorted Z.lt s -> n < m -> del_src s n < del_src s m.
Proof.
  induction s as [|d t IH]; intros n m Hs H; cbn [del_src]; auto.
  inversion Hs as [|? ? Hst Hd]; subst.
  destruct (Z.leb_spec d n), (Z.leb_spec d m); try lia.
  - apply IH; auto; lia.
  - pose proof (del_src_ge t (m + 1)). lia.
Qed.

Lemma delete_honest : forall N frames f,
  0 < N < INT_MAX -> deleteCreate N frames = CFilter f ->
  honest (f_rp f) N (f_len f) (fun n j => f_src f n = j).
Proof.
  intros N frames f HN E.
  assert (Hv : Forall (fun d => 0 <= d < N) frames /\ NoDup frames /\ zlength frames < N).
  { destruct (Forall_dec (fun d => 0 <= d < N)
      ltac:(intros x; destruct (Z_le_dec 0 x), (Z_lt_dec x N); [left|right|right|right]; lia) frames) as [H1|H1].
    - destruct (ListDec.NoDup_dec Z.eq_dec frames) as [H2|H2].
      + destruct (Z_lt_dec (zlength frames) N) as [H3|H3]; auto.
        rewrite delete_reject in E; auto. discriminate. right; right; lia.
      + rewrite delete_reject in E; auto. discriminate.
    - rewrite delete_reject in E; auto. discriminate. }
  destruct Hv as [H1 [H2 H3]].
  destruct (delete_accept N frames) as [E2 [Hs [Hr Hl]]]; auto; [lia|].
  rewrite E2 in E. inversion E; subst f; clear E. cbn [f_rp f_len f_src honest].
  destruct (del_src_spec N (zsort frames)) as [D1 D2]; auto; [lia|].
  rewrite Hl in *. split.
  - intros n j Hn <-. assert (Hin : In (del_src (zsort frames) n) (del_indices N (zsort frames))).
    { eapply nthz_In. apply D2. lia. }
    unfold del_indices in Hin. apply filter_In in Hin. destruct Hin as [Hin _]. apply In_zseq in Hin. auto.
  - intros n m j Hn Hm <- Heq.
    destruct (Z.lt_trichotomy n m) as [Hlt|[He|Hlt]]; auto; exfalso;
      pose proof (del_src_mono _ _ _ Hs Hlt); lia.
Qed.

(** Splice: inverse of the search: the output position of frame [j] of clip [i]. *)
Lemma splice_find_inv : forall lens i0 cum n i j,
  Forall (fun x => 0 < x) lens -> lens <> [] ->
  cum <= n < cum + zsum lens ->
  splice_find lens i0 cum n = (i, j) ->
  i0 <= i < i0 + zlength lens /\
  n = cum + zsum (firstn (Z.to_nat (i - i0)) lens) + j /\
  (exists len, nthz lens (i - i0) = Some len /\ 0 <= j < len).
Proof.
  induction lens as [|x t IH]; intros i0 cum n i j Hp Hne Hn E; [contradiction|].
  cbn [splice_find] in E. inversion Hp; subst. rewrite zlength_cons. cbn [zsum] in Hn.
  pose proof (zlength_nonneg _ t) as Htn.
  destruct (Z.ltb_spec n (cum + x)).
  - destruct (Z.leb_spec cum n); [|lia]. cbn [andb orb] in E. inversion E; subst.
    rewrite Z.sub_diag. cbn [firstn Z.to_nat zsum]. split; [lia|]. split; [lia|].
    exists x. split; [reflexivity|lia].
  - rewrite andb_false_r in E. cbn [orb] in E. destruct t as [|y t].
    { cbn [zsum] in Hn. lia. }
    destruct (IH (i0 + 1) (cum + x) n i j) as [I1 [I2 [len [I3 I4]]]]; auto; try discriminate; try lia.
    split; [lia|]. split.
    + replace (Z.to_nat (i - i0)) with (S (Z.to_nat (i - (i0 + 1)))) by lia.
      cbn [firstn]. cbn [zsum]. lia.
    + exists len. split; auto. rewrite nthz_cons_S by lia. rewrite <- I3. f_equal. lia.
Qed.

Lemma splice_honest : forall lens f i len,
  Forall (fun x => 0 < x) lens -> spliceCreate lens = CFilter f -> nthz lens i = Some len ->
  honest (fn_rp f i) len (fn_len f) (fun n j => fn_src f n = (i, j)).
Proof.
  intros lens f i len Hp E Hi.
  assert (Hl : lens <> []) by (intro; subst; unfold nthz in Hi; destruct (i <? 0); [|destruct (Z.to_nat i)]; discriminate).
  assert (Hc : exists total, splice_total lens 0 = Some total /\
     f = {| fn_len := total; fn_src := fun n => splice_find lens 0 0 n; fn_rp := fun _ => rpNoFrameReuse |}).
  { unfold spliceCreate in E. destruct lens as [|a [|b t]]; [contradiction|discriminate|].
    destruct (splice_total (a :: b :: t) 0) as [tot|]; [|discriminate].
    exists tot. inversion E. auto. }
  destruct Hc as [total [Ht ->]]. cbn [fn_rp fn_len fn_src honest].
  rewrite splice_total_spec in Ht.
  2:{ eapply Forall_impl; [|exact Hp]. simpl; intros; lia. }
  assert (Htot : total = zsum lens).
  { destruct (0 + zsum lens <=? INT_MAX); [inversion Ht; lia|].
    destruct lens; [contradiction|discriminate]. }
  subst total. split.
  - intros n j Hn Hs. destruct (splice_find_inv lens 0 0 n i j) as [_ [_ [len' [H1 H2]]]]; auto.
    replace (i - 0) with i in H1 by lia. congruence.
  - intros n m j Hn Hm Hs1 Hs2.
    destruct (splice_find_inv lens 0 0 n i j) as [_ [E1 _]]; auto.
    destruct (splice_find_inv lens 0 0 m i j) as [_ [E2 _]]; auto. lia.
Qed.

Lemma interleave_honest : forall lens extend f i len,
  1 < zlength lens -> Forall (fun x => 0 < x) lens ->
  interleaveCreate lens extend = CFilter f -> nthz lens i = Some len ->
  honest (fn_rp f i) len (fn_len f) (fun n j => fn_src f n = (i, j)).
Proof.
  intros lens extend f i len Hk Hp E Hi. set (k := zlength lens) in *.
  assert (Hc : exists nf, f = {| fn_len := nf; fn_src := fun n => (n mod k, n / k);
               fn_rp := fun i => match nthz lens i with
                                   | Some len => if (nf + k - 1) / k <=? len then rpNoFrameReuse
                                                 else rpFrameReuseLastOnly
                                   | None => rpGeneral end |}).
  { unfold interleaveCreate in E. fold k in E.
    destruct (if extend then (maxlen lens * k, INT_MAX / k <? maxlen lens) else inter_len lens k 0 0 false)
      as [nf ovf].
    destruct lens as [|a [|b t]].
    - exfalso. unfold nthz in Hi. destruct (i <? 0); [|destruct (Z.to_nat i)]; discriminate.
    - discriminate.
    - destruct (extend && negb (in_intb (maxlen (a :: b :: t) * k))); [discriminate|].
      destruct ovf; [discriminate|]. inversion E. eexists; reflexivity. }
  destruct Hc as [nf ->]. cbn [fn_rp fn_len fn_src]. rewrite Hi.
  assert (Hinj : forall n m j, (n mod k, n / k) = (i, j) -> (m mod k, m / k) = (i, j) -> n = m).
  { intros n m j H1 H2. inversion H1; inversion H2.
    pose proof (Z.div_mod n k ltac:(lia)). pose proof (Z.div_mod m k ltac:(lia)). nia. }
  destruct (Z.leb_spec ((nf + k - 1) / k) len) as [Hle|Hgt]; cbn [honest].
  - split.
    + intros n j Hn H1. inversion H1. subst. split; [apply Z.div_pos; lia|].
      assert (n / k < (nf + k - 1) / k); [|lia].
      assert (n / k + 1 <= (nf + k - 1) / k); [|lia].
      apply Z.div_le_lower_bound; [lia|].
      pose proof (Z.div_mod n k ltac:(lia)). pose proof (Z.mod_pos_bound n k ltac:(lia)). nia.
    + intros; eapply Hinj; eauto.
  - split.
    + intros n j Hn H1. inversion H1. apply Z.div_pos; lia.
    + intros; eapply Hinj; eauto.
Qed.
