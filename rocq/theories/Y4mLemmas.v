(** Proofs about the video output of vspipe. *)
From Coq Require Import String Ascii ZArith List Bool Lia.
From Verif Require Import Common OptSpec Opt OptLemmas Y4mSpec Y4m.
Import ListNotations.
Open Scope Z_scope.
Local Opaque dec.

Definition rowAt (n s : nat) (m : text) (y : nat) : text := firstn n (skipn (s * y) m).
Lemma rowAt_length : forall n s m y, (s * y + n <= length m)%nat -> length (rowAt n s m y) = n.
Proof. intros. unfold rowAt. rewrite firstn_length, skipn_length. lia. Qed.
Lemma skipn_add : forall {A} a b (l : list A), skipn a (skipn b l) = skipn (b + a) l.
Proof. intros A a b. induction b; intros l; [reflexivity|]. destruct l; [now rewrite !skipn_nil|]. apply IHb. Qed.
Lemma concat_rows : forall n m k i, concat (map (rowAt n n m) (seq i k)) = firstn (n * k) (skipn (n * i) m).
Proof.
  intros n m k. induction k; intros i; cbn [seq map concat].
  - now rewrite Nat.mul_0_r.
  - rewrite IHk. unfold rowAt. replace (n * S i)%nat with (n * i + n)%nat by lia. rewrite <- skipn_add.
    replace (n * S k)%nat with (n + n * k)%nat by lia.
    set (l := skipn (n * i) m). rewrite <- (firstn_skipn n l) at 3.
    destruct (le_lt_dec n (length l)) as [H|H].
    + rewrite firstn_app. rewrite firstn_length, Nat.min_l by exact H. replace (n + n * k - n)%nat with (n * k)%nat by lia.
      rewrite firstn_all2 with (n := (n + n * k)%nat); [reflexivity|]. rewrite firstn_length. lia.
    + rewrite (skipn_all2 l) by lia. rewrite firstn_nil, !app_nil_r. rewrite firstn_firstn. f_equal. lia.
Qed.
Lemma concat_length : forall n (l : list text), Forall (fun t => length t = n) l -> length (concat l) = (n * length l)%nat.
Proof. intros n l H. induction H; cbn [concat length]; [lia|]. rewrite app_length, IHForall, H. lia. Qed.

Lemma slice_ok : forall off n m, (off + n <= length m)%nat -> slice (Z.of_nat off) (Z.of_nat n) m = Ok (firstn n (skipn off m)).
Proof.
  intros. unfold slice. rewrite !Nat2Z.id.
  replace ((0 <=? Z.of_nat off) && (0 <=? Z.of_nat n) && (Z.of_nat off + Z.of_nat n <=? Z.of_nat (length m))) with true; [reflexivity|].
  symmetry. rewrite !andb_true_iff, !Z.leb_le. lia.
Qed.
Lemma store_ok : forall pre b rest, (length b <= length rest)%nat -> store (Z.of_nat (length pre)) b (pre ++ rest) = Ok (pre ++ b ++ skipn (length b) rest).
Proof.
  intros. unfold store. rewrite !Nat2Z.id.
  replace ((0 <=? Z.of_nat (length pre)) && (Z.of_nat (length pre) + Z.of_nat (length b) <=? Z.of_nat (length (pre ++ rest)))) with true.
  2:{ symmetry. rewrite andb_true_iff, !Z.leb_le, app_length. lia. }
  rewrite firstn_app, firstn_all, Nat.sub_diag, firstn_O, app_nil_r. rewrite skipn_app, (skipn_all2 pre) by lia.
  replace (length pre + length b - length pre)%nat with (length b) by lia. reflexivity.
Qed.
Lemma blit_ok : forall n s src k i pre rest, length pre = (n * i)%nat -> (n * k <= length rest)%nat -> (n <= s)%nat -> (s * (i + k) <= length src)%nat ->
  blitRows k (pre ++ rest) (Z.of_nat (n * i)) (Z.of_nat n) src (Z.of_nat (s * i)) (Z.of_nat s) (Z.of_nat n)
  = Ok (pre ++ concat (map (rowAt n s src) (seq i k)) ++ skipn (n * k) rest).
Proof.
  intros n s src k. induction k; intros i pre rest Hp Hr Hn Hs; cbn [blitRows seq map concat].
  - rewrite Nat.mul_0_r. reflexivity.
  - rewrite slice_ok by nia. cbn [obind]. fold (rowAt n s src i).
    assert (L : length (rowAt n s src i) = n) by (apply rowAt_length; nia).
    rewrite <- Hp. rewrite store_ok by nia. cbn [obind]. rewrite L.
    replace (Z.of_nat (length pre) + Z.of_nat n) with (Z.of_nat (n * S i)) by nia.
    replace (Z.of_nat (s * i) + Z.of_nat s) with (Z.of_nat (s * S i)) by nia.
    rewrite app_assoc. rewrite IHk; [| rewrite app_length, L; nia | rewrite skipn_length; nia | exact Hn | nia].
    rewrite skipn_add. rewrite <- !app_assoc. replace (n * S k)%nat with (n + n * k)%nat by lia. reflexivity.
Qed.

Lemma writePlane_ok : forall f w h p pl r buffer, 0 <= frameWidth f w p -> 0 < frameHeight f h p -> frameWidth f w p = planeW f w p -> frameHeight f h p = planeH f h p ->
  0 < bytesPerSample f ->
  planeShows (planeW f w p) (planeH f h p) (sampleBytes (f_bits f)) pl r -> planeW f w p * planeH f h p * sampleBytes (f_bits f) <= Z.of_nat (length buffer) ->
  exists buffer', writePlane f w h p pl buffer = Ok (bytesOf r, buffer') /\ length buffer' = length buffer.
Proof.
  intros f w h p pl r buffer W0 H0 EW EH B0 (S1 & S2 & S3) Hb. unfold writePlane, bytesPerSample in *. rewrite EW, EH in *.
  set (n := planeW f w p * sampleBytes (f_bits f)) in *. set (hh := planeH f h p) in *. destruct pl as [s m]; cbn [pl_stride pl_mem] in *.
  assert (N0 : 0 <= n) by (unfold n; nia). assert (Hb' : n * hh <= Z.of_nat (length buffer)) by (unfold n, hh in *; nia).
  rewrite S3. unfold bytesOf. change (map _ (seq 0 (Z.to_nat hh))) with (map (rowAt (Z.to_nat n) (Z.to_nat s) m) (seq 0 (Z.to_nat hh))).
  clearbody n hh. clear S3 EW EH W0 B0 Hb.
  destruct (Z.eqb_spec n s) as [E|E]; cbn [negb].
  - subst s. exists buffer. split; [|reflexivity]. rewrite concat_rows, Nat.mul_0_r. cbn [skipn].
    replace (n * hh) with (Z.of_nat (Z.to_nat n * Z.to_nat hh)) by nia. change 0 with (Z.of_nat 0). rewrite slice_ok by nia. reflexivity.
  - unfold bitblt. destruct (Z.eqb_spec hh 0); [lia|]. destruct (Z.eqb_spec s n); [lia|]. cbn [andb].
    pose proof (blit_ok (Z.to_nat n) (Z.to_nat s) m (Z.to_nat hh) 0 [] buffer) as P. cbn [app length] in P.
    rewrite !Nat.mul_0_r, !Z2Nat.id in P by lia. change (Z.of_nat 0) with 0 in P. rewrite P; [|reflexivity|nia|nia|cbn [Nat.add]; nia]. cbn [obind].
    assert (L : length (concat (map (rowAt (Z.to_nat n) (Z.to_nat s) m) (seq 0 (Z.to_nat hh)))) = (Z.to_nat n * Z.to_nat hh)%nat).
    { rewrite (concat_length (Z.to_nat n)); [now rewrite map_length, seq_length|]. apply Forall_map, Forall_forall. intros y Hy. apply in_seq in Hy. apply rowAt_length. nia. }
    replace (n * hh) with (Z.of_nat (Z.to_nat n * Z.to_nat hh)) by nia. change 0 with (Z.of_nat 0). rewrite slice_ok by (rewrite app_length, L; lia). cbn [obind skipn].
    rewrite firstn_app, L, Nat.sub_diag, firstn_O, app_nil_r, firstn_all2 by lia.
    eexists; split; [reflexivity|]. rewrite app_length, L, skipn_length. nia.
Qed.

(** Packing rows, whatever the stride of the source. *)
Lemma bitblt_packs : forall n s src dst h, (n <= s)%nat -> (n * h <= length dst)%nat -> (s * h <= length src)%nat ->
  bitblt dst (Z.of_nat n) src (Z.of_nat s) (Z.of_nat n) (Z.of_nat h) = Ok (concat (map (rowAt n s src) (seq 0 h)) ++ skipn (n * h) dst).
Proof.
  intros n s src dst h N D S. unfold bitblt. destruct (Z.eqb_spec (Z.of_nat h) 0) as [E|E].
  - replace h with 0%nat by lia. rewrite Nat.mul_0_r. reflexivity.
  - rewrite andb_diag. destruct (Z.eqb_spec (Z.of_nat s) (Z.of_nat n)) as [Q|Q].
    + assert (s = n) by lia. subst s. rewrite concat_rows, Nat.mul_0_r. cbn [skipn]. rewrite <- Nat2Z.inj_mul. change 0 with (Z.of_nat 0). rewrite slice_ok by lia. cbn [obind skipn].
      pose proof (store_ok [] (firstn (n * h) src) dst) as P. cbn [app length] in P. rewrite firstn_length_le in P by lia. apply P. lia.
    + rewrite Nat2Z.id. pose proof (blit_ok n s src h 0 [] dst) as P. rewrite !Nat.mul_0_r in P. cbn [app length Nat.add] in P. apply P; lia.
Qed.

(** Sizes of planes. *)
Definition sizeIs (f : format) (w h : Z) : Prop := formatIs f /\ 0 < w /\ 0 < h /\ w mod 2 ^ f_ssw f = 0 /\ h mod 2 ^ f_ssh f = 0.
Lemma bytes_pos : forall b, 0 < sampleBytes b.
Proof. intros. unfold sampleBytes. destruct (b <=? 8), (b <=? 16); lia. Qed.
Lemma part_pos : forall a s, 0 < a -> 0 <= s -> a mod 2 ^ s = 0 -> 0 < a / 2 ^ s <= a.
Proof.
  intros a s Ha Hs Hm. assert (P : 0 < 2 ^ s) by (apply Z.pow_pos_nonneg; lia). pose proof (Z_div_mod_eq_full a (2 ^ s)). rewrite Hm in H. split; nia.
Qed.
Lemma plane_size : forall f w h p, sizeIs f w h -> 0 < planeW f w p <= w /\ 0 < planeH f h p <= h /\ frameWidth f w p = planeW f w p /\ frameHeight f h p = planeH f h p.
Proof.
  intros f w h p ((_ & W1 & H1 & _) & W0 & H0 & Mw & Mh). destruct p; cbn [planeW planeH frameWidth frameHeight]; [lia|].
  rewrite !Z.shiftr_div_pow2 by lia. pose proof (part_pos w (f_ssw f) W0 ltac:(lia) Mw). pose proof (part_pos h (f_ssh f) H0 ltac:(lia) Mh). lia.
Qed.
Definition remap (f : format) (rp : nat) : nat := match f_family f with RGB => rgbRemap rp | _ => rp end.
Lemma writePlanes_ok : forall f w h fr v, sizeIs f w h -> frameShows f w h fr v ->
  forall rps buffer, Forall (fun rp => (remap f rp < planeCount f)%nat) rps -> Z.of_nat (length buffer) = w * h * sampleBytes (f_bits f) ->
  exists buffer', writePlanes f w h fr rps buffer = Ok (concat (map (fun rp => bytesOf (nth (remap f rp) v [])) rps), buffer') /\ length buffer' = length buffer.
Proof.
  intros f w h fr v S (L1 & L2 & Sh) rps. induction rps as [|rp rps IH]; intros buffer F Hb; cbn [writePlanes map concat]; [eexists; split; reflexivity|].
  inversion F as [|x l R Rs E]; subst. fold (remap f rp).
  destruct (nth_error fr (remap f rp)) as [pl|] eqn:E1; [|apply nth_error_None in E1; lia].
  destruct (nth_error v (remap f rp)) as [r|] eqn:E2; [|apply nth_error_None in E2; lia].
  pose proof (Sh _ _ _ E1 E2) as P. pose proof (plane_size f w h (remap f rp) S) as (A1 & A2 & A3 & A4). pose proof (bytes_pos (f_bits f)).
  destruct (writePlane_ok f w h (remap f rp) pl r buffer) as (b1 & W & Lb); [lia | lia | exact A3 | exact A4 | exact H | exact P | rewrite Hb; apply Z.mul_le_mono_nonneg_r; [lia|]; apply Z.mul_le_mono_nonneg; lia |].
  rewrite W. cbn [obind fst snd]. destruct (IH b1 Rs) as (b2 & W2 & Lb2); [lia|]. rewrite W2. cbn [obind fst snd].
  rewrite (nth_error_nth v (remap f rp) [] E2 : nth (remap f rp) v [] = r). eexists; split; [reflexivity|lia].
Qed.
Lemma outputFrame_ok : forall f w h fr v buffer, sizeIs f w h -> frameShows f w h fr v -> Z.of_nat (length buffer) = w * h * sampleBytes (f_bits f) ->
  exists buffer', outputFrame f w h fr buffer = Ok (rawFrame f v, buffer') /\ length buffer' = length buffer.
Proof.
  intros f w h fr v buffer S Sh Hb. unfold outputFrame.
  destruct (writePlanes_ok f w h fr v S Sh (seq 0 (planeCount f)) buffer) as (b' & W & L).
  - apply Forall_forall. intros rp Hr. apply in_seq in Hr. unfold remap, planeCount, rgbRemap in *. destruct (f_family f); [lia| |lia]. destruct rp as [|[|[|]]]; lia.
  - exact Hb.
  - exists b'. split; [|exact L]. rewrite W. do 2 f_equal. destruct Sh as (_ & L2 & _). unfold rawFrame, remap, planeCount, rgbRemap in *.
    destruct (f_family f); cbn [seq map]; [| |]; repeat (destruct v as [|? v]; try discriminate L2); cbn [nth map concat]; rewrite ?app_nil_r; reflexivity.
Qed.
Definition entryShows (f : format) (w h : Z) (x : list plane * option plane) (y : list rows * option rows) : Prop :=
  frameShows f w h (fst x) (fst y) /\ match snd x, snd y with Some a, Some b => planeShows w h (sampleBytes (f_bits f)) a b | None, None => True | _, _ => False end.
Definition marker (y4m : bool) : text := if y4m then T "FRAME" ++ [nl] else [].
Definition body (y4m : bool) (f : format) (vs : list (list rows * option rows)) : text :=
  concat (map (fun x => marker y4m ++ rawFrame f (fst x) ++ match snd x with Some a => bytesOf a | None => [] end) vs).
Lemma alpha_size : forall f w h, sizeIs f w h -> sizeIs (alphaFormat f) w h.
Proof.
  intros f w h ((A & _) & W0 & H0 & _). unfold alphaFormat. split; [|cbn [f_ssw f_ssh]; repeat split; try lia; apply Z.mod_1_r].
  split; [exact A|]. cbn [f_ssw f_ssh f_family]. repeat split; lia.
Qed.
Lemma writeFrames_ok : forall y4m f w h fs vs, sizeIs f w h -> Forall2 (entryShows f w h) fs vs -> forall buffer, Z.of_nat (length buffer) = w * h * sampleBytes (f_bits f) ->
  writeFrames y4m f w h fs buffer = Ok (body y4m f vs).
Proof.
  intros y4m f w h fs vs S F. induction F as [|[fr a] [v b] fs vs (E1 & E2) F IH]; intros buffer Hb; cbn [writeFrames]; [reflexivity|]. cbn [fst snd] in *.
  destruct (outputFrame_ok f w h fr v buffer S E1 Hb) as (b1 & W & L). rewrite W. cbn [obind fst snd].
  assert (Q : exists b2, (match a with Some a => outputFrame (alphaFormat f) w h [a] b1 | None => Ok ([], b1) end) = Ok (match b with Some a => bytesOf a | None => [] end, b2) /\ length b2 = length b1).
  { destruct a as [a|], b as [b|]; try contradiction; [|eexists; split; reflexivity].
    assert (Sa : frameShows (alphaFormat f) w h [a] [b]).
    { split; [reflexivity|]. split; [reflexivity|]. intros [|[|p]] pl r H1 H2; try discriminate H1. cbn [nth_error] in H1, H2.
      assert (Q1 : a = pl) by congruence. assert (Q2 : b = r) by congruence. subst pl r. exact E2. }
    destruct (outputFrame_ok (alphaFormat f) w h [a] [b] b1 (alpha_size f w h S) Sa) as (b2 & W2 & L2); [cbn [alphaFormat f_bits]; lia|].
    exists b2. rewrite W2. split; [|exact L2]. unfold rawFrame. cbn [alphaFormat f_family map concat]. now rewrite app_nil_r. }
  destruct Q as (b2 & W2 & L2). rewrite W2. cbn [obind fst snd]. rewrite IH by lia. cbn [obind]. unfold body. cbn [map concat fst snd]. fold (marker y4m).
  now rewrite <- !app_assoc.
Qed.
Lemma newBuffer_length : forall f w h, 0 < w -> 0 < h -> Z.of_nat (length (newBuffer f w h)) = w * h * sampleBytes (f_bits f).
Proof. intros. unfold newBuffer, bufferSize, bytesPerSample. rewrite repeat_length. pose proof (bytes_pos (f_bits f)). nia. Qed.
(** Without headers. *)
Lemma raw_ok : forall f w h num den fs vs, sizeIs f w h -> Forall2 (entryShows f w h) fs vs -> writeVideo false f w h num den fs = Ok (rawFile f vs).
Proof.
  intros f w h num den fs vs S F. unfold writeVideo. cbn [andb obind]. rewrite (writeFrames_ok false f w h fs vs S F) by (apply newBuffer_length; apply S). reflexivity.
Qed.

(** Reading back. *)
Lemma upTo_ok : forall c a b, ~ In c a -> upTo c (a ++ c :: b) = Some (a, b).
Proof.
  intros c a b. induction a as [|d a IH]; intros N; cbn [app upTo]; [now rewrite Ascii.eqb_refl|].
  destruct (Ascii.eqb_spec c d) as [E|E]; [exfalso; apply N; left; auto|]. rewrite IH; [reflexivity|]. intros I. apply N. now right.
Qed.
Lemma words_one : forall a, ~ In " "%char a -> words a = [a].
Proof.
  induction a as [|d a IH]; intros N; cbn [words]; [reflexivity|].
  destruct (Ascii.eqb_spec d " ") as [E|E]; [exfalso; apply N; left; auto|]. rewrite IH; [reflexivity|]. intros I. apply N. now right.
Qed.
Lemma words_app : forall a b, ~ In " "%char a -> words (a ++ " "%char :: b) = a :: words b.
Proof.
  intros a b. induction a as [|d a IH]; intros N; cbn [app words]; [reflexivity|].
  destruct (Ascii.eqb_spec d " ") as [E|E]; [exfalso; apply N; left; auto|]. rewrite IH; [reflexivity|]. intros I. apply N. now right.
Qed.
Lemma natural_dec : forall v, 0 <= v -> natural (dec v) = Some v.
Proof. intros v H. Local Transparent dec. unfold dec. destruct (Z.ltb_spec v 0); [lia|]. now apply decN_natural. Qed.
Local Opaque dec.
Definition noneOf (t : text) : Prop := forall c, In c t -> exists d, digit c = Some d.
Lemma digits_none : forall t acc v, digits acc t = Some v -> noneOf t.
Proof.
  induction t as [|c t IH]; intros acc v E x I; [contradiction|]. cbn [digits] in E. destruct (digit c) eqn:D; [|discriminate].
  destruct I as [<-|I]; [eauto|]. exact (IH _ _ E x I).
Qed.
Lemma dec_none : forall v, 0 <= v -> noneOf (dec v).
Proof. intros v H. pose proof (natural_dec v H) as N. unfold natural in N. destruct (dec v) as [|c t] eqn:E; [discriminate|]. exact (digits_none _ _ _ N). Qed.
Lemma notin_dec : forall c v, 0 <= v -> digit c = None -> ~ In c (dec v).
Proof. intros c v H D I. destruct (dec_none v H c I) as (d & E). congruence. Qed.
Lemma notin_app : forall (c : ascii) a b, ~ In c a -> ~ In c b -> ~ In c (a ++ b).
Proof. intros c a b A B I. apply in_app_or in I. tauto. Qed.
Lemma notin_cons : forall (c d : ascii) a, d <> c -> ~ In c a -> ~ In c (d :: a).
Proof. intros c d a A B [I|I]; auto. Qed.
Lemma strip_ok : forall p r, strip p (p ++ r) = Some r.
Proof.
  intros p r. unfold strip. rewrite firstn_app, firstn_all, Nat.sub_diag, firstn_O, app_nil_r, skipn_app, skipn_all, Nat.sub_diag.
  destruct (list_eq_dec ascii_dec p p); [reflexivity|congruence].
Qed.
Lemma takeB_ok : forall n a b, Z.of_nat (length a) = n -> takeB n (a ++ b) = Some (a, b).
Proof.
  intros n a b <-. unfold takeB. rewrite app_length. destruct (Z.leb_spec (Z.of_nat (length a)) (Z.of_nat (length a + length b))); [|lia].
  rewrite Nat2Z.id, firstn_app, firstn_all, Nat.sub_diag, firstn_O, app_nil_r, skipn_app, skipn_all, Nat.sub_diag. reflexivity.
Qed.
Lemma takeRows_ok : forall n r b, Forall (fun t => Z.of_nat (length t) = n) r -> takeRows (length r) n (bytesOf r ++ b) = Some (r, b).
Proof.
  intros n r b F. induction F as [|t r H F IH]; [reflexivity|]. cbn [length takeRows bytesOf concat]. rewrite <- app_assoc. rewrite takeB_ok by exact H.
  cbn [bind fst snd]. change (concat r) with (bytesOf r). rewrite IH. reflexivity.
Qed.
Lemma takePlanes_ok : forall f w h fr i b, (forall p r, nth_error fr p = Some r -> planeIs (planeW f w (i + p)) (planeH f h (i + p)) (sampleBytes (f_bits f)) r) ->
  takePlanes f w h (seq i (length fr)) (concat (map bytesOf fr) ++ b) = Some (fr, b).
Proof.
  intros f w h fr. induction fr as [|r fr IH]; intros i b H; [reflexivity|]. cbn [length seq takePlanes map concat]. rewrite <- app_assoc.
  destruct (H 0%nat r eq_refl) as (L & F). rewrite Nat.add_0_r in L, F. unfold takePlane. rewrite <- L, Nat2Z.id. rewrite takeRows_ok by exact F. cbn [bind fst snd].
  rewrite IH; [reflexivity|]. intros p r' E. replace (S i + p)%nat with (i + S p)%nat by lia. apply H. exact E.
Qed.
Lemma takeFrames_ok : forall f w h fs, f_family f <> RGB -> Forall (frameIs f w h) fs -> forall k, (length fs <= k)%nat ->
  takeFrames k f w h (body true f (map (fun x => (x, None)) fs)) = Some fs.
Proof.
  intros f w h fs NR F. induction F as [|fr fs (L & P) F IH]; intros k K; [destruct k; reflexivity|]. destruct k as [|k]; [cbn [length] in K; lia|].
  unfold body. cbn [map concat fst snd]. fold (body true f (map (fun x => (x, @None rows)) fs)). rewrite app_nil_r. unfold marker.
  set (rest := body true f (map (fun x => (x, None)) fs)) in *.
  assert (R : rawFrame f fr = concat (map bytesOf fr)) by (unfold rawFrame; destruct (f_family f); congruence).
  rewrite R. rewrite <- !app_assoc.
  assert (U : upTo nl (T "FRAME" ++ [nl] ++ concat (map bytesOf fr) ++ rest) = Some (T "FRAME", concat (map bytesOf fr) ++ rest)).
  { cbn [app]. apply upTo_ok. vm_compute. intros H. repeat (destruct H as [H|H]; [discriminate|]). contradiction. }
  change (takeFrames (S k) f w h (T "FRAME" ++ [nl] ++ concat (map bytesOf fr) ++ rest)) with
    (bind (upTo nl (T "FRAME" ++ [nl] ++ concat (map bytesOf fr) ++ rest)) (fun x => bind (strip (T "FRAME") (fst x)) (fun _ =>
             bind (takePlanes f w h (seq 0 (planeCount f)) (snd x)) (fun y => bind (takeFrames k f w h (snd y)) (fun r => Some (fst y :: r)))))).
  rewrite U. cbn [bind fst snd]. rewrite <- (app_nil_r (T "FRAME")) at 2. rewrite strip_ok. cbn [bind]. rewrite <- L.
  rewrite takePlanes_ok; [|intros p r E; cbn [Nat.add]; exact (P p r E)]. cbn [bind fst snd].
  cbn [length] in K. rewrite IH by lia. reflexivity.
Qed.
Lemma oki : forall {A} (a b : A), Ok a = Ok b -> a = b. Proof. intros A a b E. injection E. auto. Qed.
Lemma formatOf_ok : forall f c, formatIs f -> named f -> y4mFormat f = Ok c -> formatOf c = Some f.
Proof.
  intros [fam fl b sw sh] c (B & SW & SH & NS) N E. unfold named, y4mFormat in *. cbn [f_family f_float f_bits f_ssw f_ssh] in *.
  destruct fam; [| contradiction |].
  - subst fl. destruct NS as [-> ->]; [discriminate|]. apply oki in E. subst c. unfold formatOf. rewrite strip_ok.
    destruct (Z.ltb_spec 8 b) as [H|H].
    + pose proof (natural_dec b ltac:(lia)) as D. destruct (dec b) as [|c t] eqn:Ed; [discriminate|]. rewrite D. reflexivity.
    + replace b with 8 by lia. reflexivity.
  - assert (D : forall s, depthOf (if (8 <? b) && negb fl then T "p" ++ dec b else if fl then T "p" ++ floatBitsToLetter b else s) = Some (fl, b) \/ (8 <? b) && negb fl || fl = false /\ b = 8 /\ fl = false).
    { intros s. destruct fl; cbn [negb]; rewrite ?andb_false_r, ?andb_true_r.
      - left. destruct B as [-> | ->]; reflexivity.
      - destruct (Z.ltb_spec 8 b) as [H|H]; [left|right; split; [reflexivity|split; [lia|reflexivity]]].
        pose proof (natural_dec b ltac:(lia)) as D. change (T "p" ++ dec b) with ("p"%char :: dec b). unfold depthOf. cbn [Ascii.eqb Bool.eqb].
        destruct (list_eq_dec ascii_dec (dec b) (T "h")) as [Q|_]; [rewrite Q in D; discriminate D|].
        destruct (list_eq_dec ascii_dec (dec b) (T "s")) as [Q|_]; [rewrite Q in D; discriminate D|]. rewrite D. reflexivity. }
    assert (D' : depthOf (if (8 <? b) && negb fl then T "p" ++ dec b else if fl then T "p" ++ floatBitsToLetter b else []) = Some (fl, b)).
    { destruct (D []) as [D1|(D1 & -> & ->)]; [exact D1|reflexivity]. }
    clear D. set (r := if (8 <? b) && negb fl then _ else _) in *. clearbody r.
    cbn [In] in N. destruct N as [Q|[Q|[Q|[Q|[Q|[Q|Q]]]]]]; [.. | contradiction]; injection Q as <- <-; cbn [Z.eqb Pos.eqb andb] in E; apply oki in E; subst c;
      (unfold formatOf; match goal with |- context [strip ?p ?t] => assert (St : strip p t = None) by reflexivity; rewrite St end;
       cbn [T list_ascii_of_string app]; match goal with |- context [samplingOf ?x ?y ?z] => let s := eval vm_compute in (samplingOf x y z) in change (samplingOf x y z) with s end;
       cbn [bind fst snd]; rewrite D'; reflexivity).
Qed.
Definition sp (a b : text) : text := a ++ " "%char :: b.
Definition headerLine (c : text) (w h num den n : Z) : text :=
  sp (T "YUV4MPEG2") (sp ("C"%char :: c) (sp ("W"%char :: dec w) (sp ("H"%char :: dec h) (sp ("F"%char :: dec num ++ ":"%char :: dec den)
    (sp (T "Ip") (sp (T "A0:0") ("X"%char :: T "LENGTH=" ++ dec n))))))).
Lemma header_line : forall f w h num den n, header f w h num den n = match y4mFormat f with Ok c => Ok (headerLine c w h num den n ++ [nl]) | Err => Err | UB => UB end.
Proof.
  intros. unfold header. destruct (y4mFormat f); try reflexivity. cbn [obind]. unfold headerLine, sp. f_equal.
  cbn [T list_ascii_of_string app]. repeat (rewrite <- ?app_assoc; cbn [app]). reflexivity.
Qed.
Definition tagChar (y : ascii) : bool := existsb (Ascii.eqb y) (T "monphs") || match digit y with Some _ => true | None => false end.
Lemma format_clean : forall f c x, formatIs f -> y4mFormat f = Ok c -> tagChar x = false -> ~ In x c.
Proof.
  intros [fam fl b sw sh] c x (B & _) E N. unfold y4mFormat in E. cbn [f_family f_float f_bits f_ssw f_ssh] in *.
  assert (D : digit x = None) by (unfold tagChar in N; apply orb_false_iff in N; destruct N as [_ N]; destruct (digit x); congruence).
  assert (C : forall s : text, forallb tagChar s = true -> ~ In x s).
  { intros s F I. rewrite forallb_forall in F. specialize (F x I). congruence. }
  assert (Db : forall v, 0 <= v -> ~ In x (dec v)) by (intros; apply notin_dec; auto).
  assert (B0 : 0 <= b) by (destruct fl; lia).
  assert (Lf : ~ In x (if (8 <? b) && negb fl then T "p" ++ dec b else if fl then T "p" ++ floatBitsToLetter b else [])).
  { destruct ((8 <? b) && negb fl); [apply notin_app; [apply C; reflexivity | auto]|].
    destruct fl; [|intros []]. destruct B as [-> | ->]; apply C; reflexivity. }
  destruct fam; [| discriminate |].
  - apply oki in E. subst c. apply notin_app; [apply C; reflexivity|]. destruct (8 <? b); [auto|intros []].
  - set (r := if (8 <? b) && negb fl then _ else _) in *. clearbody r.
    assert (K : forall s : text, forallb tagChar s = true -> Ok (s ++ r) = Ok c -> ~ In x c).
    { intros s F Q. apply oki in Q. subst c. apply notin_app; [apply C, F|exact Lf]. }
    repeat match goal with E : obind (if ?q then _ else _) _ = _ |- _ => destruct q; cbn [obind] in E end; [.. | discriminate E];
      (refine (K _ _ E); reflexivity).
Qed.
Lemma line_clean : forall f c w h num den n x, formatIs f -> y4mFormat f = Ok c -> 0 <= w -> 0 <= h -> 0 <= num -> 0 <= den -> 0 <= n -> x = nl -> ~ In x (headerLine c w h num den n).
Proof.
  intros f c w h num den n x Fi E W H Nu De Nn ->.
  assert (Cc : ~ In nl c) by (exact (format_clean f c nl Fi E eq_refl)).
  unfold headerLine, sp. cbn [T list_ascii_of_string app].
  repeat (first [apply notin_cons; [discriminate|] | apply notin_app | apply notin_dec; [lia|reflexivity] | exact Cc]).
Qed.
Lemma words_line : forall f c w h num den n, formatIs f -> y4mFormat f = Ok c -> 0 <= w -> 0 <= h -> 0 <= num -> 0 <= den -> 0 <= n ->
  words (headerLine c w h num den n) = [T "YUV4MPEG2"; "C"%char :: c; "W"%char :: dec w; "H"%char :: dec h; "F"%char :: dec num ++ ":"%char :: dec den; T "Ip"; T "A0:0"; "X"%char :: T "LENGTH=" ++ dec n].
Proof.
  intros f c w h num den n Fi E W H Nu De Nn.
  assert (Cc : ~ In " "%char c) by (exact (format_clean f c " "%char Fi E eq_refl)).
  unfold headerLine, sp.
  repeat (rewrite words_app; [|cbn [T list_ascii_of_string]; repeat (first [apply notin_cons; [discriminate|] | apply notin_app | apply notin_dec; [lia|reflexivity] | exact Cc]); try (intros []; fail)]).
  rewrite words_one; [reflexivity|]. cbn [T list_ascii_of_string app]. repeat (first [apply notin_cons; [discriminate|] | apply notin_app | apply notin_dec; [lia|reflexivity]]).
Qed.
Lemma body_length : forall f fs, (length fs <= length (body true f (map (fun x => (x, @None rows)) fs)))%nat.
Proof.
  intros f fs. induction fs as [|x fs IH]; [cbn; lia|]. unfold body in *. cbn [map concat length]. rewrite app_length. unfold marker at 1. rewrite !app_length. cbn [T list_ascii_of_string length]. lia.
Qed.
Lemma alpha_none : forall (fs : list (list plane)), existsb (fun x => match snd x with Some _ => true | None => false end) (map (fun x => (x, @None plane)) fs) = false.
Proof. induction fs; cbn; auto. Qed.
Lemma format_named : forall f, named f -> exists c, y4mFormat f = Ok c.
Proof.
  intros [fam fl b sw sh] N. unfold named, y4mFormat in *. cbn [f_family f_ssw f_ssh f_float f_bits] in *. destruct fam; [eauto|contradiction|].
  cbn [In] in N. destruct N as [Q|[Q|[Q|[Q|[Q|[Q|Q]]]]]]; [.. | contradiction]; injection Q as <- <-; cbn [Z.eqb Pos.eqb andb obind]; eauto.
Qed.
Lemma round_trip : forall v fs, videoIs v -> named (v_format v) -> Forall2 (frameShows (v_format v) (v_w v) (v_h v)) fs (v_frames v) ->
  exists t, writeVideo true (v_format v) (v_w v) (v_h v) (v_num v) (v_den v) (map (fun x => (x, None)) fs) = Ok t /\ readY4m t = Some v.
Proof.
  intros [f w h num den vf] fs (Fi & W & H & Mw & Mh & Nu & De & Ne & Fr) N F2. cbn [v_format v_w v_h v_num v_den v_frames] in *.
  assert (NR : f_family f <> RGB) by (unfold named in N; destruct (f_family f); try congruence; contradiction).
  destruct (format_named f N) as (c & Ec).
  assert (S : sizeIs f w h) by (exact (conj Fi (conj W (conj H (conj Mw Mh))))).
  assert (Len : length fs = length vf) by (clear - F2; induction F2; cbn [length]; lia).
  unfold writeVideo. rewrite alpha_none. replace (match f_family f with RGB => true | _ => false end) with false by (destruct (f_family f); congruence). cbn [andb orb].
  rewrite header_line, Ec. cbn [obind]. rewrite map_length.
  rewrite (writeFrames_ok true f w h _ (map (fun x => (x, None)) vf) S); [| |apply newBuffer_length; auto].
  2:{ clear - F2. induction F2; cbn [map]; constructor; [split; [assumption|exact I] | assumption]. }
  cbn [obind]. eexists; split; [reflexivity|]. set (n := Z.of_nat (length fs)).
  unfold readY4m. rewrite <- app_assoc. cbn [app].
  rewrite upTo_ok by (apply (line_clean f); auto; unfold n; lia). cbn [bind fst snd].
  rewrite (words_line f) by (auto; unfold n; lia).
  rewrite <- (app_nil_r (T "YUV4MPEG2")) at 2. rewrite strip_ok. cbn [bind].
  cbn [field Ascii.eqb Bool.eqb T list_ascii_of_string bind].
  rewrite (formatOf_ok f c Fi N Ec). cbn [bind]. rewrite !natural_dec by lia. cbn [bind].
  unfold ratio at 1. rewrite upTo_ok by (apply notin_dec; [lia|reflexivity]). cbn [bind fst snd]. rewrite !natural_dec by lia. cbn [bind].
  change ("L"%char :: "E"%char :: "N"%char :: "G"%char :: "T"%char :: "H"%char :: "="%char :: [] ++ dec n) with (T "LENGTH=" ++ dec n). 
  match goal with |- context [strip ?p ?q] => change (strip p q) with (strip (T "LENGTH=") (T "LENGTH=" ++ dec n)) end.
  rewrite strip_ok. cbn [bind]. rewrite natural_dec by (unfold n; lia). cbn [bind].
  rewrite takeFrames_ok; [|exact NR|exact Fr|]. 2:{ rewrite app_length. cbn [length]. pose proof (body_length f vf). lia. }
  cbn [bind fst snd]. unfold n. rewrite Len, Z.eqb_refl. reflexivity.
Qed.
Lemma refused : forall f w h num den fs, ~ (f_family f = Gray \/ named f) \/ (exists x a, In (x, Some a) fs) -> writeVideo true f w h num den fs = Err.
Proof.
  intros f w h num den fs H. unfold writeVideo. destruct H as [H|(x & a & I)].
  - destruct f as [fam fl b sw sh]. cbn [f_family] in *. unfold named in H. cbn [f_family f_ssw f_ssh] in H. destruct fam; [tauto|reflexivity|]. cbn [orb andb].
    destruct (existsb _ fs); [reflexivity|]. rewrite header_line. unfold y4mFormat. cbn [f_family f_ssw f_ssh].
    repeat match goal with |- context [(sw =? ?a) && (sh =? ?b)] => destruct (Z.eqb_spec sw a); destruct (Z.eqb_spec sh b); cbn [andb obind]; try (exfalso; apply H; right; subst; cbn [In]; tauto) end; try reflexivity; try lia.
  - assert (E : existsb (fun x => match snd x with Some _ => true | None => false end) fs = true) by (apply existsb_exists; exists (x, Some a); auto).
    rewrite E, orb_true_r. reflexivity.
Qed.
Lemma gray_float : forall b w h num den fs, writeVideo true (mkF Gray true b 0 0) w h num den fs = writeVideo true (mkF Gray false b 0 0) w h num den fs.
Proof.
  intros. unfold writeVideo, header, y4mFormat. cbn [f_family f_bits]. destruct (_ && _); [reflexivity|]. cbn [obind].
  assert (E : forall buf, writeFrames true (mkF Gray true b 0 0) w h fs buf = writeFrames true (mkF Gray false b 0 0) w h fs buf).
  { induction fs as [|[fr a] fs IH]; intros buf; [reflexivity|]. cbn [writeFrames].
    change (outputFrame (mkF Gray true b 0 0) w h fr buf) with (outputFrame (mkF Gray false b 0 0) w h fr buf).
    destruct (outputFrame (mkF Gray false b 0 0) w h fr buf) as [x| |]; cbn [obind]; [|reflexivity|reflexivity].
    change (match a with Some a => outputFrame (alphaFormat (mkF Gray true b 0 0)) w h [a] (snd x) | None => Ok ([], snd x) end)
      with (match a with Some a => outputFrame (alphaFormat (mkF Gray false b 0 0)) w h [a] (snd x) | None => Ok ([], snd x) end).
    destruct (match a with Some _ => _ | None => _ end) as [z| |]; cbn [obind]; [|reflexivity|reflexivity]. rewrite IH. reflexivity. }
  change (newBuffer (mkF Gray true b 0 0) w h) with (newBuffer (mkF Gray false b 0 0) w h). rewrite E. reflexivity.
Qed.
Definition grayPlane : list plane := [mkPl 4 (T "abcd")].
Definition grayVideo (fl : bool) : video := mkV (mkF Gray fl 32 0 0) 1 1 24 1 [[[T "abcd"]]].
Lemma grayVideo_is : forall fl, videoIs (grayVideo fl).
Proof.
  intros fl. unfold videoIs, formatIs. cbn [grayVideo v_format v_w v_h v_num v_den v_frames f_float f_bits f_ssw f_ssh f_family].
  repeat split; try lia; try reflexivity; try discriminate; [destruct fl; [right; reflexivity|lia]|].
  constructor; [|constructor]. split; [reflexivity|]. intros [|[|p]] r E; try discriminate E. cbn [nth_error] in E. injection E as <-. split; [reflexivity|]. constructor; [reflexivity|constructor].
Qed.
Lemma gray_shows : forall fl, Forall2 (frameShows (v_format (grayVideo fl)) 1 1) [grayPlane] (v_frames (grayVideo fl)).
Proof.
  intros fl. constructor; [|constructor]. split; [reflexivity|]. split; [reflexivity|]. intros [|[|p]] pl r A B; cbn [nth_error grayPlane] in A, B; try discriminate A.
  injection A as <-. injection B as <-. split; [vm_compute; discriminate|split; reflexivity].
Qed.
Lemma gray_float_same : exists v v' fs t, videoIs v /\ videoIs v' /\ v <> v' /\
  Forall2 (frameShows (v_format v) (v_w v) (v_h v)) fs (v_frames v) /\ Forall2 (frameShows (v_format v') (v_w v') (v_h v')) fs (v_frames v') /\
  writeVideo true (v_format v) (v_w v) (v_h v) (v_num v) (v_den v) (map (fun x => (x, None)) fs) = Ok t /\
  writeVideo true (v_format v') (v_w v') (v_h v') (v_num v') (v_den v') (map (fun x => (x, None)) fs) = Ok t.
Proof.
  destruct (round_trip (grayVideo false) [grayPlane] (grayVideo_is false) eq_refl (gray_shows false)) as (t & W & _).
  exists (grayVideo true), (grayVideo false), [grayPlane], t. split; [apply grayVideo_is|]. split; [apply grayVideo_is|]. split; [discriminate|].
  split; [apply gray_shows|]. split; [apply gray_shows|]. split; [|exact W]. rewrite <- W. apply gray_float.
Qed.
