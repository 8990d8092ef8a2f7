(** The calls of FrameEval and ModifyFrame, one at a time. *)
From Coq Require Import ZArith List Lia Bool.
From Verif Require Import Common FormatSpec Frame Spatial ClipProp Eval EvalSpec.
Import ListNotations.
Open Scope Z_scope.

Lemma cnt_cons : forall A (p : A -> bool) x l, cnt p (x :: l) = cnt p l + (if p x then 1 else 0).
Proof. intros A p x l. unfold cnt. cbn [filter]. destruct (p x); cbn [length]; lia. Qed.

Lemma cnt_app : forall A (p : A -> bool) l1 l2, cnt p (l1 ++ l2) = cnt p l1 + cnt p l2.
Proof. intros A p l1 l2. unfold cnt. rewrite filter_app, app_length. lia. Qed.

Lemma cnt_nonneg : forall A (p : A -> bool) l, 0 <= cnt p l.
Proof. intros. unfold cnt. lia. Qed.

Lemma cnt_dropAt : forall A (p : A -> bool) l i c, nth_error l i = Some c ->
  cnt p l = cnt p (dropAt i l) + (if p c then 1 else 0).
Proof.
  intros A p. induction l as [|x tl IH]; intros i c E; [destruct i; discriminate|].
  destruct i as [|i]; cbn [nth_error dropAt] in *.
  - injection E as ->. apply cnt_cons.
  - rewrite !cnt_cons. rewrite (IH i c E). lia.
Qed.

Lemma in_dropAt : forall A (l : list A) i x, In x (dropAt i l) -> In x l.
Proof.
  intros A. induction l as [|y tl IH]; intros i x I; [destruct i; destruct I|].
  destruct i as [|i]; cbn [dropAt] in I; [right; exact I|]. destruct I as [->|I]; [left; reflexivity|right; exact (IH i x I)].
Qed.

Lemma gather_ok : forall avail g nodes s, (forall k, In k nodes -> avail k = Some (g k)) -> e_frames s = 0 ->
  gather avail nodes s = Ok (setIn s (mkIn (in_n (e_in s)) (in_f (e_in s) ++ map g nodes))).
Proof.
  intros avail g. induction nodes as [|k tl IH]; intros s A F.
  - cbn [gather map]. rewrite app_nil_r. destruct s as [[i1 i2] o c nd f]. reflexivity.
  - cbn [gather map]. unfold getFrameFilter. rewrite (A k (or_introl eq_refl)). cbn [obind fst snd].
    unfold freeFrame. destruct s as [[i1 i2] o c nd f]. cbn [setIn addFrames e_in e_out e_calls e_nodes e_frames in_n in_f] in *. subst f.
    cbn [Z.add Z.leb Z.compare obind]. rewrite IH; [|intros x I; apply A; right; exact I|reflexivity].
    cbn [setIn addFrames e_in e_out e_calls e_nodes e_frames in_n in_f Z.add Z.opp Z.pos_sub]. rewrite <- app_assoc. reflexivity.
Qed.

(** The two checks decide the two conditions on frames they may look at. *)
Lemma wrongSize_spec : forall vi m, isVideo m ->
  exists b, wrongSize vi m = Ok b /\ (b = false <-> sizeFits vi m).
Proof.
  intros vi m (f & w & h & id & ->). unfold wrongSize, sizeFits. cbn [sizeOf obind fst snd].
  destruct (Z.eqb_spec (vi_w vi) 0) as [W0|W0], (Z.eqb_spec (vi_h vi) 0) as [H0|H0]; cbn [negb orb];
    (eexists; split; [reflexivity|]); rewrite ?Bool.orb_false_iff, ?Bool.negb_false_iff, ?Z.eqb_eq.
  1: { split; [intros _; left; split; assumption|reflexivity]. }
  all: split; [intros (-> & ->); right; exists f, id; reflexivity|intros [(A & B)|(f' & id' & E)]; [contradiction|injection E as _ -> -> _; split; reflexivity]].
Qed.

Lemma wrongFormat_spec : forall vi m, isVideo m ->
  exists b, wrongFormat vi m = Ok b /\ (b = false <-> formatFits vi m).
Proof.
  intros vi m (f & w & h & id & ->). unfold wrongFormat, formatFits. cbn [fmtOf obind].
  destruct (Z.eqb_spec (f_cf (vi_fmt vi)) cfUndefined) as [U|U]; cbn [negb]; (eexists; split; [reflexivity|]).
  - split; [intros _; left; exact U|reflexivity].
  - rewrite Bool.negb_false_iff. unfold sameFormat. rewrite !Bool.andb_true_iff, !Z.eqb_eq. split.
    + intros ((((A & B) & C) & D) & E). right. exists f, w, h, id. repeat split; congruence.
    + intros [A|(f' & w' & h' & id' & E & A & B & C & D & G)]; [contradiction|]. injection E as <- _ _ _. repeat split; congruence.
Qed.

(** A clip that declares both neither looks at the frame nor refuses it. *)
Lemma wrongSize_any : forall vi m, vi_w vi = 0 -> vi_h vi = 0 -> wrongSize vi m = Ok false.
Proof. intros vi m W H. unfold wrongSize. rewrite W, H. reflexivity. Qed.

Section One.
  Variables (vi : vinfo) (fn : nat -> inMap -> outMap -> outMap).

  (** The function's answer to the next call. *)
  Definition answer (s : inst) (i : inMap) : outMap := fn (length (e_calls s)) i outEmpty.

  Lemma evaluate_is : forall s i, clean s ->
    let o := answer s i in
    evaluate fn (setIn s i) =
      (mkInst inEmpty outEmpty ((i, outEmpty) :: e_calls s)
         (match out_err o, firstNode o with None, Some k => bump (e_nodes s) k 1 | _, _ => e_nodes s end) 0,
       match out_err o with Some _ => None | None => firstNode o end,
       match out_err o with Some msg => RFail msg | None =>
         match firstNode o with None => RFail msgNoClip | Some k => RWait [k] end end).
  Proof.
    intros [si so sc sn sf] i (A & B & C) o. cbn [e_in e_out e_frames] in *. subst si so sf.
    unfold evaluate, callFunction. cbn [setIn e_in e_out e_calls e_nodes e_frames]. fold (answer (mkInst inEmpty outEmpty sc sn 0) i).
    unfold answer in *. cbn [e_calls] in *. fold o.
    destruct (out_err o) as [msg|]; [reflexivity|]. destruct (firstNode o) as [k|]; reflexivity.
  Qed.

  Lemma deliver_is : forall avail s k m, clean s -> 0 < e_nodes s k -> avail k = Some m -> isVideo m ->
    exists r, deliver vi avail s (Some k) =
      Ok (mkInst inEmpty outEmpty (e_calls s) (bump (e_nodes s) k (-1)) 0, Some k, r) /\
      (sizeFits vi m /\ formatFits vi m /\ r = RFrame m \/
       ~ sizeFits vi m /\ r = RFail msgSize \/
       sizeFits vi m /\ ~ formatFits vi m /\ r = RFail msgFormat).
  Proof.
    intros avail [si so sc sn sf] k m (A & B & C) P E V. cbn [e_in e_out e_frames e_nodes e_calls] in *. subst si so sf.
    unfold deliver, getFrameFilter. rewrite E. cbn [obind fst snd]. unfold freeNode, addFrames. cbn [e_in e_out e_calls e_nodes e_frames].
    replace (sn k <=? 0) with false by (symmetry; apply Z.leb_gt; exact P). cbn [obind].
    destruct (wrongSize_spec vi m V) as (b & -> & Hb). cbn [obind].
    destruct (wrongFormat_spec vi m V) as (c & Wf & Hc). rewrite Wf.
    unfold freeFrame, addFrames. cbn [obind e_in e_out e_calls e_nodes e_frames Z.add Z.leb Z.compare].
    destruct b.
    - eexists. split; [reflexivity|]. right. left. split; [intros F; apply Hb in F; discriminate|reflexivity].
    - cbn [obind]. destruct c.
      + eexists. split; [reflexivity|]. right. right. split; [apply Hb; reflexivity|split; [intros F; apply Hc in F; discriminate|reflexivity]].
      + eexists. split; [reflexivity|]. left. split; [apply Hb; reflexivity|split; [apply Hc; reflexivity|reflexivity]].
  Qed.

  Lemma modify_is : forall avail nodes n s fd g, clean s -> (forall k, In k nodes -> avail k = Some (g k)) ->
    let i := mkIn [n] (map g nodes) in
    let o := answer s i in
    (forall m, firstFrame o = Some m -> isVideo m) ->
    exists r, modifyGetFrame vi fn nodes n (AReady avail) s fd =
      Ok (mkInst inEmpty outEmpty ((i, outEmpty) :: e_calls s) (e_nodes s) 0, fd, r) /\ modifyOwes vi o r.
  Proof.
    intros avail nodes n [si so sc sn sf] fd g (A & B & C) Av i o V. cbn [e_in e_out e_frames e_nodes e_calls] in *. subst si so sf.
    unfold modifyGetFrame. rewrite (gather_ok avail g) by (try assumption; reflexivity). cbn [obind].
    unfold appendN, callFunction. cbn [setIn e_in e_out e_calls e_nodes e_frames in_n in_f inEmpty app].
    fold i. unfold answer in *. cbn [e_calls] in *. fold o. unfold modifyOwes.
    destruct (out_err o) as [msg|]; [eexists; split; reflexivity|].
    unfold firstFrame in *. destruct (out_val o) as [|[k|m|] tl]; try (eexists; split; reflexivity).
    specialize (V m eq_refl).
    destruct (wrongSize_spec vi m V) as (b & Ws & Hb). destruct (wrongFormat_spec vi m V) as (c & Wf & Hc). rewrite Wf. cbn [obind].
    unfold freeFrame, addFrames, setOut. cbn [obind e_in e_out e_calls e_nodes e_frames Z.add Z.leb Z.compare].
    destruct c; [eexists; split; [reflexivity|right; left; split; [intros F; apply Hc in F; discriminate|reflexivity]]|].
    rewrite Ws. cbn [obind]. destruct b.
    - eexists. split; [reflexivity|]. right. right. split; [apply Hc; reflexivity|split; [intros F; apply Hb in F; discriminate|reflexivity]].
    - eexists. split; [reflexivity|]. left. split; [apply Hb; reflexivity|split; [apply Hc; reflexivity|reflexivity]].
  Qed.
End One.
