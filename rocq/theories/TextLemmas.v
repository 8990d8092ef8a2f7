(** Drawing text: layout. *)
From Coq Require Import ZArith List Bool Lia.
From Verif Require Import Common TextSpec Text.
Import ListNotations.
Open Scope Z_scope.

Lemma adjust_index : forall c, 0 <= c < 256 -> adjust c = glyphIndex c /\ 0 <= glyphIndex c < 251.
Proof.
  assert (H : forallb (fun c => (adjust c =? glyphIndex c) && (0 <=? glyphIndex c) && (glyphIndex c <? 251)) (map Z.of_nat (seq 0 256)) = true) by (vm_compute; reflexivity).
  intros c C. rewrite forallb_forall in H. specialize (H c). rewrite !andb_true_iff, Z.eqb_eq, Z.leb_le, Z.ltb_lt in H.
  destruct H as ((A & B) & D); [|lia]. apply in_map_iff. exists (Z.to_nat c). split; [lia|]. apply in_seq. lia.
Qed.
Lemma adjust_not_nl : forall c, adjust c =? 10 = false.
Proof.
  intros c. apply Z.eqb_neq. unfold adjust.
  destruct (Z.ltb_spec c 32); [cbn [orb]; lia|]. cbn [orb].
  destruct ((c =? 129) || (c =? 141) || (c =? 143) || (c =? 144) || (c =? 157)); [lia|].
  destruct (Z.ltb_spec 157 c); [lia|]. destruct (Z.ltb_spec 144 c); [lia|]. destruct (Z.ltb_spec 141 c); [lia|]. destruct (Z.ltb_spec 129 c); lia.
Qed.
Lemma split_lines : forall n t cur, (length t <= n)%nat -> splitNl (map adjust cur) (sanitise t) = map (map adjust) (linesOf cur t).
Proof.
  induction n as [|n IH]; intros [|c r] cur L; cbn [length] in L; try lia; try (cbn [sanitise splitNl linesOf map]; now rewrite map_rev).
  cbn [sanitise]. destruct (Z.eqb_spec c 13) as [->|N].
  - destruct r as [|d r]; [cbn [sanitise splitNl linesOf orb]; change (10 =? 10) with true; change (13 =? 13) with true; change (13 =? 10) with false; cbn [orb map rev splitNl]; rewrite map_rev; reflexivity|]. cbn [length] in L.
    destruct (Z.eqb_spec d 10) as [->|D].
    + replace (linesOf cur (13 :: 10 :: r)) with (rev cur :: linesOf [] r) by reflexivity. cbn [splitNl map]. change (10 =? 10) with true. cbv iota. rewrite map_rev. f_equal. change (@nil Z) with (map adjust []) at 1. apply IH. lia.
    + replace (linesOf cur (13 :: d :: r)) with (rev cur :: linesOf [] (d :: r)).
      2:{ destruct d as [|p|p]; try reflexivity. destruct p as [p|p|]; try reflexivity. destruct p as [p|p|]; try reflexivity. destruct p as [p|p|]; try reflexivity. destruct p; try reflexivity. lia. }
      replace (match d :: r with 10 :: r' => 10 :: sanitise r' | _ => 10 :: sanitise (d :: r) end) with (10 :: sanitise (d :: r)).
      2:{ destruct d as [|p|p]; try reflexivity. destruct p as [p|p|]; try reflexivity. destruct p as [p|p|]; try reflexivity. destruct p as [p|p|]; try reflexivity. destruct p; try reflexivity. lia. }
      cbn [splitNl map]. change (10 =? 10) with true. cbv iota. rewrite map_rev. f_equal. change (@nil Z) with (map adjust []) at 1. apply IH. cbn [length]. lia.
  - replace (linesOf cur (c :: r)) with (if (c =? 10) || (c =? 13) then rev cur :: linesOf [] r else linesOf (c :: cur) r).
    2:{ destruct c as [|p|p]; try reflexivity. do 4 (destruct p as [p|p|]; try reflexivity). lia. }
    destruct (Z.eqb_spec c 10) as [->|D].
    + cbn [orb splitNl map]. change (10 =? 10) with true. cbv iota. rewrite map_rev. f_equal. change (@nil Z) with (map adjust []) at 1. apply IH. lia.
    + destruct (Z.eqb_spec c 13); [lia|]. cbn [orb splitNl]. rewrite adjust_not_nl. change (adjust c :: map adjust cur) with (map adjust (c :: cur)). apply IH. lia.
Qed.
(** Cutting. *)
Lemma skipn_skipn' : forall {A} a b (l : list A), skipn a (skipn b l) = skipn (b + a) l.
Proof. intros A a b. induction b as [|b IH]; intros l; [reflexivity|]. destruct l as [|x l]; [now rewrite !skipn_nil|]. cbn [skipn Nat.add]. apply IH. Qed.
Lemma pieces_one : forall n l, (1 <= n)%nat -> (length l <= n)%nat -> pieces n l = [l].
Proof.
  intros n l N L. unfold pieces. replace (Nat.max 1 ((length l + n - 1) / n)) with 1%nat.
  - cbn [seq map Nat.mul skipn]. now rewrite firstn_all2.
  - assert ((length l + n - 1) / n <= 1)%nat; [|lia]. apply Nat.lt_succ_r. apply Nat.div_lt_upper_bound; lia.
Qed.
Lemma pieces_more : forall n l, (1 <= n)%nat -> (n < length l)%nat -> pieces n l = firstn n l :: pieces n (skipn n l).
Proof.
  intros n l N L. unfold pieces. rewrite skipn_length.
  assert (E : ((length l + n - 1) / n = Datatypes.S ((length l - n + n - 1) / n))%nat).
  { replace (length l + n - 1)%nat with (length l - n + n - 1 + 1 * n)%nat by lia. rewrite Nat.div_add by lia. lia. }
  assert (Q : (1 <= (length l - n + n - 1) / n)%nat) by (apply Nat.div_le_lower_bound; lia).
  rewrite E. rewrite !Nat.max_r by lia. cbn [seq map Nat.mul skipn]. f_equal. rewrite <- seq_shift, map_map. apply map_ext. intros i. f_equal. rewrite skipn_skipn'. reflexivity.
Qed.
Definition weight (ls : list (list Z)) : nat := fold_right (fun l s => (1 + length l + s)%nat) 0%nat ls.
Lemma cut_ok : forall fuel cap ls, 1 <= cap -> (weight ls <= fuel)%nat -> cutLines fuel cap ls = Ok (concat (map (pieces (Z.to_nat cap)) ls)).
Proof.
  induction fuel as [|k IH]; intros cap [|l r] C W; try reflexivity; cbn [weight fold_right] in W; [lia|].
  cbn [cutLines map concat]. unfold zlength. destruct (Z.ltb_spec cap (Z.of_nat (length l))) as [H|H].
  - rewrite IH; [|exact C|cbn [weight fold_right]; rewrite skipn_length; fold (weight r) in *; lia]. cbn [obind map concat]. rewrite (pieces_more _ l) by lia. reflexivity.
  - rewrite IH; [|exact C|fold (weight r) in *; lia]. cbn [obind]. rewrite (pieces_one _ l) by lia. reflexivity.
Qed.
Lemma split_weight : forall t cur, (weight (splitNl cur t) = 1 + length cur + length t)%nat.
Proof.
  intros t. induction t as [|c r IH]; intros cur; cbn [splitNl length].
  - cbn [weight fold_right]. rewrite rev_length. lia.
  - destruct (c =? 10).
    + cbn [weight fold_right]. fold (weight (splitNl [] r)). rewrite IH, rev_length. cbn [length]. lia.
    + rewrite IH. cbn [length]. lia.
Qed.
Lemma split_some : forall t cur, (1 <= length (splitNl cur t))%nat.
Proof. intros t. induction t as [|c r IH]; intros cur; cbn [splitNl length]; [lia|]. destruct (c =? 10); [cbn [length]; lia|apply IH]. Qed.
Lemma pieces_map : forall g n l, pieces n (map g l) = map (map g) (pieces n l).
Proof. intros g n l. unfold pieces. rewrite map_length, map_map. apply map_ext. intros i. now rewrite skipn_map, firstn_map. Qed.
Lemma split_ok : forall t W H s, 1 <= s -> 32 + 8 * s <= W -> 32 + 16 * s <= H ->
  splitText (sanitise t) (W - 16 * 2) (H - 16 * 2) s = Ok (map (map adjust) (layout t W H s)).
Proof.
  intros t W H s S WB HB. unfold splitText, characterWidth, characterHeight.
  assert (C : Z.quot (Z.quot (W - 16 * 2) 8) s = columns W s) by (unfold columns; rewrite Z.quot_div_nonneg by (try apply Z.quot_pos; lia); rewrite Z.quot_div_nonneg by lia; rewrite Z.div_div by lia; reflexivity).
  assert (V : Z.quot (Z.quot (H - 16 * 2) 16) s = rowsOfText H s) by (unfold rowsOfText; rewrite Z.quot_div_nonneg by (try apply Z.quot_pos; lia); rewrite Z.quot_div_nonneg by lia; rewrite Z.div_div by lia; reflexivity).
  assert (C1 : 1 <= columns W s) by (apply Z.div_le_lower_bound; lia).
  rewrite C, V. rewrite cut_ok; [|exact C1|].
  2:{ rewrite split_weight. cbn [length]. pose proof (split_some (sanitise t) []). lia. }
  cbn [obind]. f_equal. unfold layout. pose proof (split_lines (length t) t [] (le_n _)) as L. cbn [map] in L. rewrite L. rewrite map_map.
  assert (E : concat (map (fun x => pieces (Z.to_nat (columns W s)) (map adjust x)) (linesOf [] t)) = map (map adjust) (concat (map (pieces (Z.to_nat (columns W s))) (linesOf [] t)))).
  { rewrite concat_map, map_map. f_equal. apply map_ext. intros l. apply pieces_map. }
  rewrite E. destruct (Z.ltb_spec (rowsOfText H s) (zlength (map (map adjust) (concat (map (pieces (Z.to_nat (columns W s))) (linesOf [] t)))))) as [Q|Q].
  - now rewrite firstn_map.
  - rewrite firstn_all2; [reflexivity|]. unfold zlength in Q. rewrite map_length in Q. lia.
Qed.
(** The text fits between the margins. *)
Lemma layout_rows : forall t W H s, 1 <= s -> 32 <= H -> Z.of_nat (length (layout t W H s)) * (16 * s) <= H - 32.
Proof.
  intros t W H s S HB. unfold layout. rewrite firstn_length.
  assert (R : rowsOfText H s * (16 * s) <= H - 32) by (unfold rowsOfText; rewrite Z.mul_comm; apply Z.mul_div_le; lia).
  assert (P : 0 <= rowsOfText H s) by (apply Z.div_pos; lia). nia.
Qed.
Lemma layout_columns : forall t W H s l, 1 <= s -> 32 <= W -> In l (layout t W H s) -> Z.of_nat (length l) * (8 * s) <= W - 32.
Proof.
  intros t W H s l S WB I. unfold layout in I. assert (J : In l (concat (map (pieces (Z.to_nat (columns W s))) (linesOf [] t)))) by (rewrite <- (firstn_skipn (Z.to_nat (rowsOfText H s))); apply in_or_app; left; exact I).
  apply in_concat in J. destruct J as (x & X & Y). apply in_map_iff in X. destruct X as (y & <- & _). unfold pieces in Y. apply in_map_iff in Y. destruct Y as (i & <- & _). rewrite firstn_length.
  assert (R : columns W s * (8 * s) <= W - 32) by (unfold columns; rewrite Z.mul_comm; apply Z.mul_div_le; lia).
  assert (P : 0 <= columns W s) by (apply Z.div_pos; lia). nia.
Qed.
(** Nothing is lost when a line is cut. *)
Lemma pieces_concat : forall n k l, (1 <= n)%nat -> (length l <= k)%nat -> concat (pieces n l) = l.
Proof.
  intros n k. induction k as [k IH] using lt_wf_ind. intros l N L. destruct (Nat.le_gt_cases (length l) n) as [H|H].
  - rewrite pieces_one by assumption. cbn. apply app_nil_r.
  - rewrite pieces_more by assumption. cbn [concat]. rewrite (IH (k - 1)%nat); [apply firstn_skipn|lia|exact N|rewrite skipn_length; lia].
Qed.
Lemma layout_codes : forall t W H s l c, Forall (fun c => 0 <= c < 256) t -> In l (layout t W H s) -> In c l -> 0 <= c < 256.
Proof.
  intros t W H s l c F I Ic. unfold layout in I. assert (J : In l (concat (map (pieces (Z.to_nat (columns W s))) (linesOf [] t)))) by (rewrite <- (firstn_skipn (Z.to_nat (rowsOfText H s))); apply in_or_app; left; exact I).
  apply in_concat in J. destruct J as (x & X & Y). apply in_map_iff in X. destruct X as (y & <- & Z1). unfold pieces in Y. apply in_map_iff in Y. destruct Y as (i & <- & _).
  assert (K : In c y). { rewrite <- (firstn_skipn (i * Z.to_nat (columns W s)) y). apply in_or_app. right. rewrite <- (firstn_skipn (Z.to_nat (columns W s)) (skipn _ y)). apply in_or_app. left. exact Ic. }
  clear - F K Z1. assert (G : forall n t cur, (length t <= n)%nat -> Forall (fun c => 0 <= c < 256) t -> Forall (fun c => 0 <= c < 256) cur -> In y (linesOf cur t) -> 0 <= c < 256).
  { clear - K. induction n as [|n IH]; intros [|d r] cur L F C I; cbn [length] in L; try lia.
    - destruct I as [<-|[]]. apply in_rev in K. rewrite Forall_forall in C. auto.
    - destruct I as [<-|[]]. apply in_rev in K. rewrite Forall_forall in C. auto.
    - inversion F; subst.
      assert (A : In y (if (d =? 10) || (d =? 13) then rev cur :: linesOf [] r else linesOf (d :: cur) r) -> 0 <= c < 256).
      { destruct ((d =? 10) || (d =? 13)).
        - intros [<-|Q]; [apply in_rev in K; rewrite Forall_forall in C; auto|]. apply (IH r [] ltac:(lia) H2 ltac:(constructor) Q).
        - intros Q. apply (IH r (d :: cur) ltac:(lia) H2 ltac:(constructor; assumption) Q). }
      destruct (Z.eq_dec d 13) as [->|N13].
      + destruct r as [|e r]; [exact (A I)|]. destruct (Z.eq_dec e 10) as [->|N10].
        * cbn [linesOf] in I. change ((10 =? 10) || (10 =? 13)) with true in I. cbv iota in I. cbn [length] in L. inversion H2; subst.
          destruct I as [<-|Q]; [apply in_rev in K; rewrite Forall_forall in C; auto|]. apply (IH r [] ltac:(lia) H4 ltac:(constructor) Q).
        * apply A. replace (linesOf cur (13 :: e :: r)) with (rev cur :: linesOf [] (e :: r)) in I; [exact I|].
          destruct e as [|p|p]; try reflexivity. do 4 (destruct p as [p|p|]; try reflexivity). lia.
      + apply A. replace (linesOf cur (d :: r)) with (if (d =? 10) || (d =? 13) then rev cur :: linesOf [] r else linesOf (d :: cur) r) in I; [exact I|].
        destruct d as [|p|p]; try reflexivity. do 4 (destruct p as [p|p|]; try reflexivity). lia. }
  apply (G (length t) t [] (le_n _) F ltac:(constructor) Z1).
Qed.
