From Coq Require Import String Sorting.
From Coq Require Import ZArith List Lia Bool.
From Verif Require Import Common FormatSpec Format FormatLemmas.
Import ListNotations.
Open Scope Z_scope.

(** *** Names are injective: check of the finite list of formats *)

Definition stBits : list (Z * Z) :=
  map (fun k => (stInteger, Z.of_nat k)) (seq 8 25) ++ [(stFloat, 16); (stFloat, 32)].

Definition ssAll : list (Z * Z) := list_prod (map Z.of_nat (seq 0 5)) (map Z.of_nat (seq 0 5)).

Definition mk (cf st bits w h : Z) : vfmt :=
  mkV cf st bits (if bits <=? 8 then 1 else if bits <=? 16 then 2 else 4) w h
      (if cf =? cfGray then 1 else 3).

Definition allFmt : list vfmt :=
  flat_map (fun sb => mk cfGray (fst sb) (snd sb) 0 0 :: mk cfRGB (fst sb) (snd sb) 0 0 ::
     map (fun ss => mk cfYUV (fst sb) (snd sb) (fst ss) (snd ss)) ssAll) stBits.

Lemma in_range : forall n a b, (a <= n < a + Z.of_nat b) -> 0 <= a ->
  In n (map Z.of_nat (seq (Z.to_nat a) b)).
Proof.
  intros n a b H Ha. apply in_map_iff. exists (Z.to_nat n). split; [lia|]. apply in_seq. lia.
Qed.

Lemma in_stBits : forall st bits,
  st = stInteger /\ 8 <= bits <= 32 \/ st = stFloat /\ (bits = 16 \/ bits = 32) ->
  In (st, bits) stBits.
Proof.
  intros st bits [(-> & B)|(-> & B)]; unfold stBits; apply in_or_app.
  - left. apply in_map_iff. exists (Z.to_nat bits). split; [f_equal; lia|]. apply in_seq. lia.
  - right. destruct B as [->| ->]; cbn; auto.
Qed.

Lemma in_ssAll : forall w h, 0 <= w <= 4 -> 0 <= h <= 4 -> In (w, h) ssAll.
Proof.
  intros. unfold ssAll. apply in_prod; change 0%nat with (Z.to_nat 0); apply in_range; lia.
Qed.

Lemma storage_mk : forall bits, 8 <= bits <= 32 ->
  storage bits (if bits <=? 8 then 1 else if bits <=? 16 then 2 else 4).
Proof.
  intros bits H. unfold storage.
  destruct (Z.leb_spec bits 8); [|destruct (Z.leb_spec bits 16)];
  (split; [lia|split; [lia|intros; lia]]).
Qed.

Lemma allFmt_complete : forall f, fmt_valid f -> In f allFmt.
Proof.
  intros f V. pose proof V as (A & B & C & D & E).
  assert (HB : 8 <= f_bits f <= 32) by lia.
  assert (G : f = mk (f_cf f) (f_st f) (f_bits f) (f_ssw f) (f_ssh f)).
  { destruct f as [a b c d e h i]; unfold mk;
    cbn [f_cf f_st f_bits f_bytes f_ssw f_ssh f_np] in *. f_equal.
    - eapply storage_inj; [exact C|apply storage_mk; exact HB].
    - destruct (Z.eqb_spec a cfGray); lia. }
  unfold allFmt. apply in_flat_map. exists (f_st f, f_bits f).
  split; [apply in_stBits; exact B|]. cbn [fst snd].
  destruct A as [A|[A|A]]; rewrite A in G, D.
  - left. destruct D as [(D & _)|(_ & D1 & D2)]; [discriminate D|]. rewrite D1, D2 in G. auto.
  - right; left. destruct D as [(D & _)|(_ & D1 & D2)]; [discriminate D|]. rewrite D1, D2 in G. auto.
  - right; right. apply in_map_iff. exists (f_ssw f, f_ssh f). cbn [fst snd]. split; [auto|].
    destruct D as [(_ & D1 & D2)|(D & _)]; [apply in_ssAll; auto|exfalso; apply D; reflexivity].
Qed.

Definition ostr_eqb (a b : option string) : bool :=
  match a, b with
  | Some a, Some b => String.eqb a b
  | None, None => true
  | _, _ => false
  end.

Fixpoint distinctb (l : list (option string)) : bool :=
  match l with
  | [] => true
  | x :: r => negb (existsb (ostr_eqb x) r) && distinctb r
  end.

Lemma distinctb_inj : forall A (g : A -> option string) l, distinctb (map g l) = true ->
  forall a b, In a l -> In b l -> g a = g b -> a = b.
Proof.
  intros A g l; induction l as [|x l IH]; cbn [map distinctb]; intros H a b Ha Hb E; [destruct Ha|].
  apply andb_true_iff in H; destruct H as (H1 & H2). apply negb_true_iff in H1.
  assert (K : forall y, In y l -> g x = g y -> False).
  { intros y Hy Ey. assert (T : existsb (ostr_eqb (g x)) (map g l) = true); [|congruence].
    apply existsb_exists. exists (g y). split; [apply in_map; auto|]. rewrite Ey.
    destruct (g y); cbn; [apply String.eqb_refl|reflexivity]. }
  destruct Ha as [->|Ha], Hb as [->|Hb]; auto.
  - exfalso; eapply K; eauto.
  - exfalso; eapply K; eauto.
Qed.

Lemma names_distinct : distinctb (map getVideoFormatName allFmt) = true.
Proof. vm_compute. reflexivity. Qed.

Lemma names_injective : forall f g, fmt_valid f -> fmt_valid g ->
  getVideoFormatName f = getVideoFormatName g -> f = g.
Proof.
  intros f g Vf Vg. apply (distinctb_inj _ _ _ names_distinct); apply allFmt_complete; auto.
Qed.

Lemma names_fit : forall f, fmt_valid f ->
  exists s, getVideoFormatName f = Some s /\ (0 < String.length s < 32)%nat.
Proof.
  assert (K : forallb (fun f => match getVideoFormatName f with
     | Some s => Nat.ltb 0 (String.length s) && Nat.ltb (String.length s) 32 | None => false end) allFmt = true)
    by (vm_compute; reflexivity).
  intros f V. rewrite forallb_forall in K. specialize (K f (allFmt_complete f V)).
  destruct (getVideoFormatName f) as [s|]; [|discriminate]. exists s. split; [reflexivity|].
  apply andb_true_iff in K. rewrite !Nat.ltb_lt in K. exact K.
Qed.

(** *** The API 3 registry *)

Definition fams : list Z := [cmGray; cmRGB; cmYUV; cmYCoCg; cmCompat].

Definition descr_ok (d : Z * Z * Z * Z * Z) : Prop :=
  match d with (cf, st, bits, w, h) =>
    In cf fams /\ (st = stInteger /\ 8 <= bits <= 32 \/ st = stFloat /\ (bits = 16 \/ bits = 32)) /\
    0 <= w <= 4 /\ 0 <= h <= 4 end.

Definition allDescr : list (Z * Z * Z * Z * Z) :=
  flat_map (fun cf => flat_map (fun sb => map (fun ss => (cf, fst sb, snd sb, fst ss, snd ss)) ssAll) stBits) fams.

Lemma allDescr_complete : forall d, descr_ok d -> In d allDescr.
Proof.
  intros [[[[cf st] bits] w] h] (A & B & C & D). unfold allDescr. apply in_flat_map.
  exists cf. split; [exact A|]. apply in_flat_map. exists (st, bits).
  split; [apply in_stBits; exact B|]. apply in_map_iff. exists (w, h). split; [reflexivity|].
  apply in_ssAll; auto.
Qed.

Definition idlt (a b : v3fmt) := t_id a < t_id b.

Record reg_ok (r : reg) : Prop := {
  ro_sorted : StronglySorted idlt (r_fmts r);
  ro_nodup : NoDup (map descr (r_fmts r));
  ro_descr : forall f, In f (r_fmts r) -> descr_ok (descr f);
  ro_id : forall f, In f (r_fmts r) -> t_cf f + 10 <= t_id f < t_cf f + r_off r;
  ro_off : r_off r = 1000 + (zlength (r_fmts r) - 35);
  ro_size : 35 <= zlength (r_fmts r);
  ro_compat : forall f, In f (r_fmts r) -> t_cf f = cmCompat -> t_id f = pfCompatBGR32 \/ t_id f = pfCompatYUY2
}.

Lemma reg_bound : forall r, reg_ok r -> r_off r <= 5000.
Proof.
  intros r O. assert (L : (length (map descr (r_fmts r)) <= length allDescr)%nat).
  { apply NoDup_incl_length; [apply O|]. intros d Hd. apply in_map_iff in Hd.
    destruct Hd as (f & <- & Hf). apply allDescr_complete. apply O; exact Hf. }
  rewrite map_length in L. assert (E : length allDescr = Z.to_nat 3375) by (vm_compute; reflexivity).
  rewrite (ro_off _ O). unfold zlength. lia.
Qed.

Lemma fams_range : forall a b, In a fams -> In b fams -> a = b \/ a + 1000000 <= b \/ b + 1000000 <= a.
Proof.
  unfold fams, cmGray, cmRGB, cmYUV, cmYCoCg, cmCompat. cbn [In]. intros. lia.
Qed.

Lemma sorted_inj : forall l, StronglySorted idlt l -> forall f g, In f l -> In g l ->
  t_id f = t_id g -> f = g.
Proof.
  induction 1 as [|a l S IH F]; intros f g Hf Hg E; [destruct Hf|].
  rewrite Forall_forall in F. unfold idlt in F.
  destruct Hf as [->|Hf], Hg as [->|Hg]; auto.
  - specialize (F _ Hg). lia.
  - specialize (F _ Hf). lia.
Qed.

Lemma find_id : forall l f, StronglySorted idlt l -> In f l ->
  find (fun g => t_id g =? t_id f) l = Some f.
Proof.
  intros l f S Hf. destruct (find (fun g => t_id g =? t_id f) l) as [g|] eqn:E.
  - apply find_some in E. destruct E as (E1 & E2). apply Z.eqb_eq in E2.
    f_equal. eapply sorted_inj; eauto.
  - exfalso. apply (find_none _ _ E) in Hf. rewrite Z.eqb_refl in Hf. discriminate.
Qed.

Lemma insert_in : forall f l, (forall g, In g l -> t_id g <> t_id f) ->
  forall h, In h (insertFmt f l) <-> h = f \/ In h l.
Proof.
  intros f l; induction l as [|g l IH]; intros N h; cbn [insertFmt].
  - cbn. split; intros [->|[]]; auto.
  - destruct (Z.ltb_spec (t_id f) (t_id g)); [cbn; split; intros [A|[A|A]]; auto|].
    destruct (Z.eqb_spec (t_id f) (t_id g)).
    + exfalso. apply (N g); [left; reflexivity|auto].
    + cbn [In]. rewrite IH; [|intros; apply N; right; assumption].
      split; intros [A|[A|A]]; auto.
Qed.

Lemma insert_sorted : forall f l, StronglySorted idlt l -> (forall g, In g l -> t_id g <> t_id f) ->
  StronglySorted idlt (insertFmt f l).
Proof.
  intros f l S; induction S as [|g l S IH F]; intros N; cbn [insertFmt].
  - repeat constructor.
  - destruct (Z.ltb_spec (t_id f) (t_id g)) as [L|L].
    + constructor; [constructor; assumption|]. constructor; [exact L|].
      rewrite Forall_forall in *. intros x Hx. specialize (F x Hx). unfold idlt in *. lia.
    + destruct (Z.eqb_spec (t_id f) (t_id g)) as [Q|Q].
      * exfalso. apply (N g); [left; reflexivity|auto].
      * constructor; [apply IH; intros; apply N; right; assumption|].
        rewrite Forall_forall in *. intros x Hx.
        apply insert_in in Hx; [|intros; apply N; right; assumption].
        destruct Hx as [->|Hx]; [unfold idlt; lia|apply F; exact Hx].
Qed.

Lemma insert_length : forall f l, (forall g, In g l -> t_id g <> t_id f) ->
  length (insertFmt f l) = S (length l).
Proof.
  intros f l; induction l as [|g l IH]; intros N; cbn [insertFmt]; [reflexivity|].
  destruct (Z.ltb_spec (t_id f) (t_id g)); [reflexivity|].
  destruct (Z.eqb_spec (t_id f) (t_id g)).
  - exfalso. apply (N g); [left; reflexivity|auto].
  - cbn [length]. rewrite IH; [reflexivity|]. intros; apply N; right; assumption.
Qed.

Lemma insert_nodup : forall f l, (forall g, In g l -> t_id g <> t_id f) ->
  NoDup (map descr l) -> ~ In (descr f) (map descr l) -> NoDup (map descr (insertFmt f l)).
Proof.
  intros f l; induction l as [|g l IH]; intros N D I; cbn [insertFmt].
  - cbn. constructor; [auto|constructor].
  - destruct (Z.ltb_spec (t_id f) (t_id g)); [cbn [map]; constructor; assumption|].
    destruct (Z.eqb_spec (t_id f) (t_id g)).
    + exfalso. apply (N g); [left; reflexivity|auto].
    + cbn [map] in *. inversion D; subst. constructor.
      * intro Q. apply in_map_iff in Q. destruct Q as (x & Ex & Hx).
        apply insert_in in Hx; [|intros; apply N; right; assumption].
        destruct Hx as [->|Hx]; [apply I; left; congruence|].
        apply H2. rewrite <- Ex. apply in_map. exact Hx.
      * apply IH; [intros; apply N; right; assumption|assumption|].
        intro Q; apply I; right; exact Q.
Qed.

Lemma sameDescr_iff : forall cf st bits w h f,
  sameDescr cf st bits w h f = true <-> descr f = (cf, st, bits, w, h).
Proof.
  intros. unfold sameDescr, descr. rewrite !andb_true_iff, !Z.eqb_eq. split.
  - intros ((((A & B) & C) & D) & E). congruence.
  - intro E; inversion E; subst; auto.
Qed.

(** The acceptance test of the registry. *)
Definition q3_ok (cf st bits w h : Z) : Prop :=
  0 <= w <= 4 /\ 0 <= h <= 4 /\ (cf = cmRGB -> w = 0 /\ h = 0) /\
  (st = stInteger /\ 8 <= bits <= 32 \/ st = stFloat /\ (bits = 16 \/ bits = 32)) /\ cf <> cmCompat.

Lemma q3_cases : forall r cf st bits w h,
  (queryVideoFormat3 r cf st bits w h false 0 = (r, None) /\ ~ q3_ok cf st bits w h) \/
  (q3_ok cf st bits w h /\ queryVideoFormat3 r cf st bits w h false 0 =
     match find (sameDescr cf st bits w h) (r_fmts r) with
     | Some f => (r, Some f)
     | None =>
         let r' := mkReg (insertFmt (mk3 (cf + r_off r) cf st bits w h) (r_fmts r)) (r_off r + 1) in
         (r', getV3VideoFormat r' (cf + r_off r))
     end).
Proof.
  intros. unfold queryVideoFormat3, q3_ok, stInteger, stFloat.
  cbn [negb]. rewrite andb_true_r. change (0 =? 0) with true. cbn [negb].
  repeat match goal with |- context [if ?b then (r, None) else _] =>
     let H := fresh "B" in destruct b eqn:H end;
  repeat rewrite ?andb_true_iff, ?andb_false_iff, ?orb_true_iff, ?orb_false_iff,
        ?negb_true_iff, ?negb_false_iff, ?Z.eqb_eq, ?Z.eqb_neq, ?Z.ltb_lt, ?Z.ltb_ge,
        ?Z.leb_le, ?Z.leb_gt in *;
  try (left; split; [reflexivity|]; lia).
  right. split; [|reflexivity]. lia.
Qed.

Lemma q3_step : forall r cf st bits w h r' o, reg_ok r -> In cf fams ->
  queryVideoFormat3 r cf st bits w h false 0 = (r', o) ->
  reg_ok r' /\ (forall f, In f (r_fmts r) -> In f (r_fmts r')) /\
  match o with
  | None => ~ q3_ok cf st bits w h
  | Some f => q3_ok cf st bits w h /\ In f (r_fmts r') /\ descr f = (cf, st, bits, w, h)
  end.
Proof.
  intros r cf st bits w h r' o O Hc E.
  destruct (q3_cases r cf st bits w h) as [(Q & N)|(N & Q)]; rewrite E in Q.
  - injection Q as -> ->. split; [exact O|]. split; [auto|exact N].
  - destruct (find (sameDescr cf st bits w h) (r_fmts r)) as [f|] eqn:F.
    + injection Q as -> ->. apply find_some in F. destruct F as (F1 & F2).
      apply sameDescr_iff in F2. split; [exact O|]. split; [auto|]. auto.
    + cbv zeta in Q. set (f := mk3 (cf + r_off r) cf st bits w h) in *.
      assert (Fn : forall g, In g (r_fmts r) -> t_id g <> t_id f).
      { intros g Hg Eg. pose proof (ro_id _ O g Hg) as I. pose proof (reg_bound r O) as RB.
        pose proof (ro_descr _ O g Hg) as D. destruct D as (D & _).
        cbn [t_id f] in Eg. destruct (fams_range _ _ D Hc) as [K|K]; lia. }
      assert (O' : reg_ok (mkReg (insertFmt f (r_fmts r)) (r_off r + 1))).
      { constructor; cbn [r_fmts r_off].
        - apply insert_sorted; [apply O|exact Fn].
        - apply insert_nodup; [exact Fn|apply O|]. intro Q'. apply in_map_iff in Q'.
          destruct Q' as (g & Eg & Hg). apply (find_none _ _ F) in Hg.
          assert (sameDescr cf st bits w h g = true); [|congruence]. apply sameDescr_iff. exact Eg.
        - intros g Hg. apply insert_in in Hg; [|exact Fn]. destruct Hg as [->|Hg]; [|apply O; exact Hg].
          unfold descr, descr_ok; cbn. destruct N as (N1 & N2 & N3 & N4 & N5). auto.
        - intros g Hg. apply insert_in in Hg; [|exact Fn].
          pose proof (ro_off _ O). pose proof (ro_size _ O).
          destruct Hg as [->|Hg]; [cbn; lia|pose proof (ro_id _ O g Hg); lia].
        - rewrite (ro_off _ O). unfold zlength. rewrite insert_length by exact Fn. lia.
        - pose proof (ro_size _ O). unfold zlength in *. rewrite insert_length by exact Fn. lia.
        - intros g Hg. apply insert_in in Hg; [|exact Fn]. destruct Hg as [->|Hg]; [|apply O; exact Hg].
          cbn. destruct N as (_ & _ & _ & _ & N). contradiction. }
      assert (If : In f (insertFmt f (r_fmts r))) by (apply insert_in; auto).
      unfold getV3VideoFormat in Q. cbn [r_fmts] in Q.
      change (cf + r_off r) with (t_id f) in Q.
      pose proof (find_id (insertFmt f (r_fmts r)) f (ro_sorted _ O') If) as FI. rewrite FI in Q. injection Q as -> ->.
      split; [exact O'|]. cbn [r_fmts]. split; [|split; [exact N|split; [exact If|reflexivity]]].
      intros g Hg. apply insert_in; auto.
Qed.

Lemma reg0_ok : reg_ok reg0.
Proof.
  constructor.
  - assert (K : forall l, (fix chk l := match l with a :: (b :: _) as r => (t_id a <? t_id b) && chk r | _ => true end) l = true ->
        StronglySorted idlt l).
    { induction l as [|a l IH]; intro H; [constructor|].
      apply Sorted_StronglySorted; [intros x y z; unfold idlt; lia|].
      destruct l as [|b l]; [repeat constructor|].
      apply andb_true_iff in H; destruct H as (H1 & H2).
      constructor; [apply StronglySorted_Sorted; apply IH; exact H2|].
      constructor. apply Z.ltb_lt; exact H1. }
    apply K. vm_compute. reflexivity.
  - vm_compute. repeat (constructor; [cbn [In]; intuition congruence|]). constructor.
  - intros f Hf. vm_compute in Hf.
    repeat (destruct Hf as [Hf|Hf]; [subst f; unfold descr_ok, descr, fams; cbn; unfold stInteger, stFloat, cmGray, cmRGB, cmYUV, cmYCoCg, cmCompat; lia|]).
    destruct Hf.
  - intros f Hf. vm_compute in Hf.
    repeat (destruct Hf as [Hf|Hf]; [subst f; vm_compute; intuition congruence|]).
    destruct Hf.
  - vm_compute. reflexivity.
  - vm_compute. discriminate.
  - intros f Hf. vm_compute in Hf.
    repeat (destruct Hf as [Hf|Hf]; [subst f; vm_compute; intuition congruence|]).
    destruct Hf.
Qed.

(** Registries reachable from a new core by plugins asking for formats. *)
Inductive reg_reach : reg -> Prop :=
| rr0 : reg_reach reg0
| rrq : forall r cf st bits w h, reg_reach r -> In cf fams ->
    reg_reach (fst (queryVideoFormat3 r cf st bits w h false 0)).

Lemma reach_ok : forall r, reg_reach r -> reg_ok r.
Proof.
  induction 1 as [|r cf st bits w h R IH Hc]; [exact reg0_ok|].
  destruct (queryVideoFormat3 r cf st bits w h false 0) as (r', o) eqn:E.
  apply (q3_step _ _ _ _ _ _ _ _ IH Hc E).
Qed.

Lemma ids_stable : forall r cf st bits w h id f, reg_reach r -> In cf fams ->
  getV3VideoFormat r id = Some f ->
  getV3VideoFormat (fst (queryVideoFormat3 r cf st bits w h false 0)) id = Some f.
Proof.
  intros r cf st bits w h id f R Hc G. pose proof (reach_ok r R) as O.
  destruct (queryVideoFormat3 r cf st bits w h false 0) as (r', o) eqn:E.
  destruct (q3_step _ _ _ _ _ _ _ _ O Hc E) as (O' & I & _). cbn [fst].
  unfold getV3VideoFormat in *. apply find_some in G. destruct G as (G1 & G2).
  apply Z.eqb_eq in G2. subst id. apply find_id; [apply O'|auto].
Qed.

Lemma q3_found : forall r cf st bits w h, reg_reach r -> In cf fams -> q3_ok cf st bits w h ->
  exists r' f, queryVideoFormat3 r cf st bits w h false 0 = (r', Some f) /\
    descr f = (cf, st, bits, w, h) /\ getV3VideoFormat r' (t_id f) = Some f /\
    (forall r2, reg_reach r2 -> (forall g, In g (r_fmts r') -> In g (r_fmts r2)) ->
       queryVideoFormat3 r2 cf st bits w h false 0 = (r2, Some f)).
Proof.
  intros r cf st bits w h R Hc Q. pose proof (reach_ok r R) as O.
  destruct (queryVideoFormat3 r cf st bits w h false 0) as (r', o) eqn:E.
  destruct (q3_step _ _ _ _ _ _ _ _ O Hc E) as (O' & I & K).
  destruct o as [f|]; [|contradiction]. destruct K as (_ & If & D).
  exists r', f. split; [reflexivity|]. split; [exact D|].
  split; [unfold getV3VideoFormat; apply find_id; [apply O'|exact If]|].
  intros r2 R2 S. pose proof (reach_ok r2 R2) as O2.
  destruct (q3_cases r2 cf st bits w h) as [(_ & N)|(_ & ->)]; [contradiction|].
  assert (I2 : In f (r_fmts r2)) by auto.
  destruct (find (sameDescr cf st bits w h) (r_fmts r2)) as [g|] eqn:F.
  - apply find_some in F. destruct F as (F1 & F2). apply sameDescr_iff in F2.
    do 2 f_equal. pose proof (ro_nodup _ O2) as ND.
    assert (NI : forall l, NoDup (map descr l) -> In f l -> In g l -> descr f = descr g -> g = f).
    { clear. induction l as [|x l IH]; cbn [map]; intros N A B C; [destruct A|].
      inversion N; subst. destruct A as [->|A], B as [->|B]; auto.
      - exfalso; apply H1. rewrite C. apply in_map; auto.
      - exfalso; apply H1. rewrite <- C. apply in_map; auto. }
    apply (NI _ ND); auto. congruence.
  - apply (find_none _ _ F) in I2. assert (sameDescr cf st bits w h f = true) by (apply sameDescr_iff; exact D).
    congruence.
Qed.

Lemma ids_distinct : forall r f g, reg_reach r -> In f (r_fmts r) -> In g (r_fmts r) ->
  t_id f = t_id g -> f = g.
Proof.
  intros r f g R. apply sorted_inj. apply (ro_sorted _ (reach_ok r R)).
Qed.

(** API 4 -> API 3 -> API 4. *)
Lemma v3_roundtrip : forall r f, reg_reach r -> fmt_valid f ->
  exists r' t, VideoFormatToV3 r f = Some (r', Some t) /\ reg_reach r' /\
    VideoFormatFromV3 (Some t) = Some (true, f) /\
    getVideoFormatByID r' (t_id t) = Some (true, f) /\ t_id t <> fmtID f.
Proof.
  intros r f R V. pose proof V as (A & B & C & D & E).
  assert (Hc : exists cf, ColorFamilyToV3 (f_cf f) = Some cf /\ In cf fams /\
            ColorFamilyFromV3 cf = Some (f_cf f) /\ cf <> cmCompat /\ (cf = cmRGB -> f_cf f = cfRGB)).
  { destruct A as [->|[->| ->]]; eexists; (split; [reflexivity|]);
    (split; [cbn; auto|]); (split; [reflexivity|]); (split; [discriminate|]);
    intro K; first [discriminate K|reflexivity]. }
  destruct Hc as (cf & T & I & F & NC & RG).
  assert (Q : q3_ok cf (f_st f) (f_bits f) (f_ssw f) (f_ssh f)).
  { unfold q3_ok. split; [lia|]. split; [lia|]. split; [|split; [exact B|exact NC]].
    intro K. specialize (RG K). destruct D as [(D & _)|(_ & D)]; [|exact D].
    rewrite RG in D. discriminate D. }
  destruct (q3_found r _ _ _ _ _ R I Q) as (r' & t & EQ & Dt & G & _).
  exists r', t.
  assert (U : f_cf f =? cfUndefined = false).
  { apply Z.eqb_neq. unfold cfUndefined, cfGray, cfRGB, cfYUV in *. lia. }
  assert (R' : reg_reach r').
  { replace r' with (fst (queryVideoFormat3 r cf (f_st f) (f_bits f) (f_ssw f) (f_ssh f) false 0))
      by (rewrite EQ; reflexivity). constructor; auto. }
  pose proof (reach_ok _ R') as O'.
  assert (It : In t (r_fmts r')) by (apply find_some in G; tauto).
  assert (Et : t_cf t = cf /\ t_st t = f_st f /\ t_bits t = f_bits f /\ t_ssw t = f_ssw f /\ t_ssh t = f_ssh f)
    by (unfold descr in Dt; inversion Dt; auto).
  destruct Et as (E1 & E2 & E3 & E4 & E5).
  pose proof (ro_id _ O' t It) as Id. pose proof (reg_bound _ O') as RB.
  assert (NB : t_id t < cmCompat).
  { cut (cf + 5000 < cmCompat); [lia|]. unfold fams in I. cbn [In] in I.
    unfold cmGray, cmRGB, cmYUV, cmYCoCg, cmCompat in *. lia. }
  assert (P : 1000000 < t_id t).
  { cut (1000000 <= cf); [lia|]. unfold fams in I. cbn [In] in I.
    unfold cmGray, cmRGB, cmYUV, cmYCoCg, cmCompat in *. lia. }
  assert (FR : VideoFormatFromV3 (Some t) = Some (true, f)).
  { unfold VideoFormatFromV3.
    replace ((t_id t =? pfCompatBGR32) || (t_id t =? pfCompatYUY2)) with false.
    2:{ symmetry. apply orb_false_iff. rewrite !Z.eqb_neq. unfold pfCompatBGR32, pfCompatYUY2. lia. }
    rewrite E1, F, E2, E3, E4, E5. apply query_exact. exact V. }
  split; [unfold VideoFormatToV3; rewrite U, T, EQ; reflexivity|].
  split; [exact R'|]. split; [exact FR|].
  assert (V3 : isV3ID (t_id t) = true).
  { apply isV3ID_iff; unfold cmCompat in NB; change (2^32) with 4294967296 || idtac; change (2^24) with 16777216; lia. }
  split.
  - unfold getVideoFormatByID. rewrite V3, G. exact FR.
  - intro K. pose proof (valid_validP f V) as VP. unfold fmtID in K. rewrite queryID_pack in K by exact VP.
    destruct VP as (VP & _). unfold cmCompat in NB. unfold pack in K.
    pose proof (validP_fields _ _ _ _ _ (valid_validP f V)) as Fd. unfold fields in Fd.
    unfold cfGray, cfRGB, cfYUV in *. lia.
Qed.

(** *** Audio *)

Lemma queryAudio_iff : forall st bits layout, 0 <= layout < 2 ^ 64 ->
  match queryAudioFormat st bits layout with
  | Some a => afmt_valid a /\ a_st a = st /\ a_bits a = bits /\ a_layout a = layout
  | None => ~ exists a, afmt_valid a /\ a_st a = st /\ a_bits a = bits /\ a_layout a = layout
  end.
Proof.
  intros st bits layout HL. unfold queryAudioFormat, isValidAudioFormat.
  assert (NV : (~ (st = stInteger /\ 16 <= bits <= 32 \/ st = stFloat /\ bits = 32) \/ layout = 0) ->
     ~ exists a, afmt_valid a /\ a_st a = st /\ a_bits a = bits /\ a_layout a = layout).
  { intros H (a & (V1 & V2 & V3 & V4) & <- & <- & <-). lia. }
  unfold stInteger, stFloat in *.
  destruct (Z.eqb_spec st 0), (Z.eqb_spec st 1); cbn [negb andb]; try (apply NV; lia);
  destruct (Z.ltb_spec bits 16); cbn [orb negb]; try (apply NV; lia);
  destruct (Z.ltb_spec 32 bits); cbn [orb negb]; try (apply NV; lia);
  destruct (Z.eqb_spec bits 32); cbn [negb]; try (apply NV; lia);
  destruct (Z.eqb_spec layout 0); cbn [negb]; try (apply NV; lia);
  (assert (HB : 8 <= bits <= 32) by lia; destruct (bytesLoop_total bits HB) as (b & -> & (S1 & S2 & S3));
   split; [|auto]; unfold afmt_valid, stInteger, stFloat; cbn [a_st a_bits a_bytes a_nch a_layout];
   pose proof (S3 2); pose proof (S3 4);
   split; [lia|split; [lia|split; [lia|reflexivity]]]).
Qed.

Lemma isValidAudioS_iff : forall a, 0 <= a_layout a < 2 ^ 64 ->
  isValidAudioFormatS a = true <-> afmt_valid a.
Proof.
  intros a HL. unfold isValidAudioFormatS, isValidAudioFormat, afmt_valid, stInteger, stFloat in *.
  generalize dependent (popcount 64 (a_layout a)). intros pc.
  repeat step1; repeat rewrite ?andb_true_iff, ?andb_false_iff, ?orb_true_iff, ?orb_false_iff,
        ?negb_true_iff, ?negb_false_iff, ?Z.eqb_eq, ?Z.eqb_neq, ?Z.ltb_lt, ?Z.ltb_ge in *;
  (split; [intro; try discriminate|intro; try reflexivity]); lia.
Qed.
