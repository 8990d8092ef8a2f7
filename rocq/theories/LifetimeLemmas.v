(** The life of filter instances: invariants. *)
From Coq Require Import ZArith List Bool Lia Arith.
From Verif Require Import Common Lifetime.
Import ListNotations.
Open Scope list_scope.
Open Scope Z_scope.

(** ** Sums over lists *)
Definition total {A} (f : A -> Z) (l : list A) : Z := fold_right (fun x a => f x + a) 0 l.
Lemma total_app : forall A (f : A -> Z) a b, total f (a ++ b) = total f a + total f b.
Proof. intros A f a b. induction a as [|x a IH]; [reflexivity|]. change ((x :: a) ++ b) with (x :: (a ++ b)). unfold total in *. cbn [fold_right]. lia. Qed.
Lemma total_cons : forall A (f : A -> Z) x l, total f (x :: l) = f x + total f l.
Proof. reflexivity. Qed.
Lemma total_upd : forall A (f : A -> Z) l i x y, nth_error l i = Some y -> total f (upd i x l) = total f l - f y + f x.
Proof. intros A f l. induction l as [|z l IH]; intros [|i] x y H; cbn in H; try discriminate; cbn [upd]; rewrite !total_cons; [injection H as ->; lia|rewrite (IH i x y H); lia]. Qed.
Lemma total_ext : forall A (f g : A -> Z) l, (forall x, In x l -> f x = g x) -> total f l = total g l.
Proof. intros A f g l H. induction l as [|x l IH]; [reflexivity|]. rewrite !total_cons, (H x), IH by (intros; try apply H; cbn; auto). reflexivity. Qed.
Lemma total_nonneg : forall A (f : A -> Z) l, (forall x, In x l -> 0 <= f x) -> 0 <= total f l.
Proof. intros A f l H. induction l as [|x l IH]; [cbn; lia|]. rewrite total_cons. pose proof (H x (or_introl eq_refl)). assert (0 <= total f l) by (apply IH; intros; apply H; right; assumption). lia. Qed.
Lemma total_ge : forall A (f : A -> Z) l x, (forall x, In x l -> 0 <= f x) -> In x l -> f x <= total f l.
Proof.
  intros A f l x H I. induction l as [|y l IH]; [destruct I|]. rewrite total_cons. pose proof (H y (or_introl eq_refl)). assert (P : 0 <= total f l) by (apply total_nonneg; intros; apply H; right; assumption).
  destruct I as [->|I]; [lia|]. assert (f x <= total f l) by (apply IH; [intros; apply H; right; assumption|exact I]). lia.
Qed.
Lemma total_zero : forall A (f : A -> Z) l, (forall x, In x l -> f x = 0) -> total f l = 0.
Proof. intros A f l H. induction l as [|x l IH]; [reflexivity|]. rewrite total_cons, (H x), IH by (intros; try apply H; cbn; auto). reflexivity. Qed.
Lemma total_map : forall A B (f : B -> Z) (g : A -> B) l, total f (map g l) = total (fun x => f (g x)) l.
Proof. intros A B f g l. induction l as [|x l IH]; [reflexivity|]. cbn [map]. rewrite !total_cons, IH. reflexivity. Qed.

Lemma upd_length : forall A (l : list A) i x, List.length (upd i x l) = List.length l.
Proof. intros A l. induction l as [|y l IH]; intros [|i] x; cbn; auto. Qed.
Lemma upd_same : forall A (l : list A) i x y, nth_error l i = Some y -> nth_error (upd i x l) i = Some x.
Proof. intros A l. induction l as [|z l IH]; intros [|i] x y H; cbn in *; try discriminate; [reflexivity|]. apply (IH i x y H). Qed.
Lemma upd_other : forall A (l : list A) i j x, i <> j -> nth_error (upd i x l) j = nth_error l j.
Proof. intros A l. induction l as [|z l IH]; intros [|i] [|j] x H; cbn; try reflexivity; try congruence. apply IH. congruence. Qed.
Lemma upd_in : forall A (l : list A) i x y, In y (upd i x l) -> y = x \/ In y l.
Proof. intros A l. induction l as [|z l IH]; intros [|i] x y H; cbn in *; auto; destruct H as [<-|H]; auto. destruct (IH i x y H); auto. Qed.

Lemma numbered_nth : forall A (l : list A) i j, nth_error (numbered i l) j = option_map (fun x => ((i + j)%nat, x)) (nth_error l j).
Proof. intros A l. induction l as [|x l IH]; intros i [|j]; cbn; try reflexivity; [rewrite Nat.add_0_r; reflexivity|]. rewrite IH. rewrite Nat.add_succ_r. reflexivity. Qed.
Lemma mapi_nth : forall A B (f : nat -> A -> B) l j, nth_error (mapi f l) j = option_map (f j) (nth_error l j).
Proof. intros A B f l j. unfold mapi. rewrite nth_error_map, numbered_nth. destruct (nth_error l j); reflexivity. Qed.
Lemma mapi_length : forall A B (f : nat -> A -> B) l, List.length (mapi f l) = List.length l.
Proof. intros A B f l. unfold mapi. rewrite map_length. generalize 0%nat. induction l as [|x l IH]; intros i; cbn; auto. Qed.
Lemma numbered_in : forall A (l : list A) j x, nth_error l j = Some x -> In (j, x) (numbered 0 l).
Proof. intros A l j x H. apply (nth_error_In _ j). rewrite numbered_nth, H. reflexivity. Qed.
Lemma total_mapi : forall A (f : A -> Z) (g : nat -> A -> A) l, (forall i x, f (g i x) = f x) -> total f (mapi g l) = total f l.
Proof. intros A f g l H. unfold mapi. generalize 0%nat. induction l as [|x l IH]; intros i; [reflexivity|]. cbn [numbered map]. rewrite !total_cons, IH, H. reflexivity. Qed.

Lemma nth_error_Some_bound : forall A (l : list A) i x, nth_error l i = Some x -> (i < List.length l)%nat.
Proof. intros A l i x H. apply nth_error_Some. congruence. Qed.

(** ** Counting *)
Definition isZ (b : bool) : Z := if b then 1 else 0.
Lemma isZ_nonneg : forall b, 0 <= isZ b.
Proof. intros []; cbn; lia. Qed.
Definition occA (f : act -> bool) (l : list act) : Z := total (fun a => isZ (f a)) l.
Definition isRel (n : nat) (a : act) : bool := match a with ARel m => Nat.eqb m n | _ => false end.
Definition isPending (n : nat) (a : act) : bool := match a with AInst m => Nat.eqb m n | ACall m _ => Nat.eqb m n | _ => false end.
Definition coreOf (ns : list node) (n : nat) : option nat := option_map n_core (nth_error ns n).
Definition inCore (ns : list node) (c n : nat) : bool := match coreOf ns n with Some c' => Nat.eqb c' c | None => false end.
Definition keeps (ns : list node) (c : nat) (a : act) : bool := match a with AInst m => inCore ns c m | ADec c' => Nat.eqb c' c | _ => false end.
(** The references a node holds. *)
Definition holds (n : nat) (m : node) : Z := (if n_live m then occ n (n_deps m) else 0) + (if n_fin m then 0 else occ n (n_inst m)).
Definition refsOf (s : state) (n : nat) : Z := total (holds n) (s_nodes s) + total (fun th => occA (isRel n) (t_stack th)) (s_threads s).
Definition phase (s : state) (n : nat) : Z := total (fun th => occA (isPending n) (t_stack th) + occ n (t_list th)) (s_threads s).
Definition keepers (ns : list node) (c : nat) (th : thread) : Z := occA (keeps ns c) (t_stack th) + total (fun n => isZ (inCore ns c n)) (t_list th).
Definition kept (s : state) (c : nat) : Z := total (fun m => isZ (n_live m && Nat.eqb (n_core m) c)) (s_nodes s) + total (keepers (s_nodes s) c) (s_threads s).

Definition flatAct (a : act) : bool := match a with ARel _ | AInst _ => true | _ => false end.
Definition coreAct (ns : list node) (c : nat) (a : act) : bool := match a with ARel m | AInst m => inCore ns c m | _ => false end.
Definition wfThread (ns : list node) (th : thread) : Prop :=
  (t_depth th = 0%nat /\ t_list th = [] /\ (forallb flatAct (t_stack th) = true \/ exists c, t_stack th = [ADec c])) \/
  (t_depth th = 1%nat /\ exists k, forallb flatAct k = true /\
    ((t_stack th = ALeave :: k /\ t_list th = []) \/
     exists c, forallb (inCore ns c) (t_list th) = true /\
       (t_stack th = ALoop c :: ALeave :: k \/
        (exists n, inCore ns c n = true /\ t_stack th = ACall n c :: ADec c :: ALoop c :: ALeave :: k) \/
        exists a, forallb (coreAct ns c) a = true /\ t_stack th = a ++ ADec c :: ALoop c :: ALeave :: k))) \/
  (t_depth th = 2%nat /\ exists k c a, forallb flatAct k = true /\ forallb (inCore ns c) (t_list th) = true /\ forallb (coreAct ns c) a = true /\ t_stack th = ALeave :: a ++ ADec c :: ALoop c :: ALeave :: k).
Definition freeOf (ns : list node) (n : nat) : bool := match nth_error ns n with Some x => n_free x | None => false end.
Definition known (ns : list node) (n : nat) : bool := Nat.ltb n (List.length ns).
Definition wfNode (s : state) (i : nat) (x : node) : Prop :=
  n_refs x = n_ext x + n_lost x + refsOf s i /\ 0 <= n_ext x /\ 0 <= n_lost x /\ 0 <= n_refs x /\ n_live x = (0 <? n_refs x) /\
  phase s i + isZ (n_fin x) = 1 - isZ (n_live x) /\ (n_free x = false -> n_inst x = []) /\
  (forall m, In m (n_deps x) \/ In m (n_inst x) -> (m < i)%nat /\ inCore (s_nodes s) (n_core x) m = true) /\ (n_core x < List.length (s_cores s))%nat.
Definition isFree (n : nat) (e : event) : bool := match e with EFree m _ => Nat.eqb m n | _ => false end.
Definition isDelete (c : nat) (e : event) : bool := match e with EDelete d => Nat.eqb d c | _ => false end.
Definition occE (f : event -> bool) (l : list event) : Z := total (fun e => isZ (f e)) l.
Definition wfCore (s : state) (c : nat) (k : kore) : Prop :=
  k_count k = isZ (k_handle k) + kept s c /\ k_deleted k = (k_count k =? 0) /\ occE (isDelete c) (s_log s) = isZ (k_deleted k).
Record good (s : state) : Prop := {
  g_nodes : forall i x, nth_error (s_nodes s) i = Some x -> wfNode s i x;
  g_cores : forall c k, nth_error (s_cores s) c = Some k -> wfCore s c k;
  g_threads : forall th, In th (s_threads s) -> wfThread (s_nodes s) th;
  g_known : forall th a, In th (s_threads s) -> In a (t_stack th) -> match a with ARel n | AInst n => known (s_nodes s) n = true | ADec c => (c < List.length (s_cores s))%nat | ACall n _ => freeOf (s_nodes s) n = true | _ => True end;
  g_list : forall th n, In th (s_threads s) -> In n (t_list th) -> freeOf (s_nodes s) n = true;
  g_log : forall i x, nth_error (s_nodes s) i = Some x -> occE (isFree i) (s_log s) = isZ (n_free x && n_fin x);
  g_logCore : forall n c, In (EFree n c) (s_log s) -> inCore (s_nodes s) c n = true
}.

(** ** Facts about counting *)
Lemma occ_cons : forall i n l, occ i (n :: l) = isZ (Nat.eqb n i) + occ i l.
Proof. intros i n l. unfold occ. cbn. destruct (Nat.eq_dec n i) as [->|N]; [rewrite Nat.eqb_refl; cbn [isZ]; lia|]. apply Nat.eqb_neq in N. rewrite N. cbn [isZ]. lia. Qed.
Lemma occ_nonneg : forall i l, 0 <= occ i l.
Proof. intros. unfold occ. lia. Qed.
Lemma occ_zero : forall i l, ~ In i l -> occ i l = 0.
Proof. intros i l H. unfold occ. apply (count_occ_not_In Nat.eq_dec) in H. rewrite H. reflexivity. Qed.
Lemma occ_pos : forall i l, In i l -> 0 < occ i l.
Proof. intros i l H. unfold occ. apply (count_occ_In Nat.eq_dec) in H. lia. Qed.
Lemma occA_cons : forall f a l, occA f (a :: l) = isZ (f a) + occA f l.
Proof. reflexivity. Qed.
Lemma occA_app : forall f a b, occA f (a ++ b) = occA f a + occA f b.
Proof. intros. apply total_app. Qed.
Lemma occA_nonneg : forall f l, 0 <= occA f l.
Proof. intros. apply total_nonneg. intros a _. destruct (f a); cbn; lia. Qed.
Lemma occA_rel : forall i l, occA (isRel i) (map ARel l) = occ i l.
Proof. intros i l. induction l as [|n l IH]; [reflexivity|]. cbn [map]. rewrite occA_cons, occ_cons, IH. reflexivity. Qed.
Lemma occA_none : forall f l, (forall n, f (ARel n) = false) -> occA f (map ARel l) = 0.
Proof. intros f l H. apply total_zero. intros a I. apply in_map_iff in I. destruct I as (n & <- & _). rewrite H. reflexivity. Qed.
Lemma occA_in : forall f l a, In a l -> f a = true -> 1 <= occA f l.
Proof. intros f l a I H. replace 1 with (isZ (f a)) by (rewrite H; reflexivity). apply (total_ge _ (fun a => isZ (f a)) l a); [|exact I]. intros b _. destruct (f b); cbn; lia. Qed.
Lemma holds_nonneg : forall i x, 0 <= holds i x.
Proof. intros i x. unfold holds. pose proof (occ_nonneg i (n_deps x)). pose proof (occ_nonneg i (n_inst x)). destruct (n_live x), (n_fin x); lia. Qed.
Lemma forallb_mono : forall A (f g : A -> bool) l, (forall x, f x = true -> g x = true) -> forallb f l = true -> forallb g l = true.
Proof. intros A f g l H F. apply forallb_forall. intros x I. apply H. rewrite forallb_forall in F. apply F. exact I. Qed.

Lemma thread_mono : forall ns ns' th, (forall c m, inCore ns c m = true -> inCore ns' c m = true) -> wfThread ns th -> wfThread ns' th.
Proof.
  intros ns ns' th H W. destruct W as [W|[(D & k & F & W)|(D & k & c & a & F & L & A & E)]].
  - left. exact W.
  - right. left. split; [exact D|]. exists k. split; [exact F|]. destruct W as [W|(c & L & W)]; [left; exact W|right]. exists c. split; [exact (forallb_mono _ _ _ _ (H c) L)|].
    destruct W as [W|[(n & N & W)|(a & A & W)]]; [left; exact W|right; left; exists n; split; [exact (H c n N)|exact W]|right; right]. exists a. split; [|exact W].
    apply (forallb_mono _ (coreAct ns c)); [|exact A]. intros [m|m|d|m d|d|]; cbn; auto.
  - right. right. split; [exact D|]. exists k, c, a. split; [exact F|]. split; [exact (forallb_mono _ _ _ _ (H c) L)|]. split; [|exact E].
    apply (forallb_mono _ (coreAct ns c)); [|exact A]. intros [m|m|d|m d|d|]; cbn; auto.
Qed.

(** ** One thread moves on *)
Definition sameShape (ns ns' : list node) : Prop :=
  List.length ns' = List.length ns /\ forall i x x', nth_error ns i = Some x -> nth_error ns' i = Some x' -> n_core x' = n_core x /\ n_deps x' = n_deps x /\ n_inst x' = n_inst x /\ n_free x' = n_free x.
Lemma shape_refl : forall ns, sameShape ns ns.
Proof. intros ns. split; [reflexivity|]. intros i x x' A B. rewrite A in B. injection B as <-. auto. Qed.
Lemma shape_upd : forall ns n x y, nth_error ns n = Some x -> n_core y = n_core x -> n_deps y = n_deps x -> n_inst y = n_inst x -> n_free y = n_free x -> sameShape ns (upd n y ns).
Proof.
  intros ns n x y N C D I F. split; [apply upd_length|]. intros i u v A B. destruct (Nat.eq_dec n i) as [->|NE].
  - rewrite (upd_same _ _ _ _ _ N) in B. injection B as <-. rewrite N in A. injection A as <-. auto.
  - rewrite upd_other in B by exact NE. rewrite A in B. injection B as <-. auto.
Qed.
Lemma shape_back : forall ns ns' i x', sameShape ns ns' -> nth_error ns' i = Some x' -> exists x, nth_error ns i = Some x.
Proof. intros ns ns' i x' (L & _) H. destruct (nth_error ns i) as [x|] eqn:E; [eauto|]. apply nth_error_None in E. assert (nth_error ns' i <> None) as Q by congruence. apply nth_error_Some in Q. lia. Qed.
Lemma shape_core : forall ns ns' c m, sameShape ns ns' -> inCore ns' c m = inCore ns c m.
Proof.
  intros ns ns' c m S. unfold inCore, coreOf. destruct (nth_error ns' m) as [x'|] eqn:E.
  - destruct (shape_back _ _ _ _ S E) as (x & E2). rewrite E2. cbn. destruct (proj2 S m x x' E2 E) as (C & _). rewrite C. reflexivity.
  - destruct (nth_error ns m) as [x|] eqn:E2; [|reflexivity]. apply nth_error_None in E. assert (nth_error ns m <> None) as Q by congruence. apply nth_error_Some in Q. destruct S as (L & _). lia.
Qed.
Lemma shape_keepers : forall ns ns' c th, sameShape ns ns' -> keepers ns' c th = keepers ns c th.
Proof.
  intros ns ns' c th S. unfold keepers, occA. f_equal; apply total_ext; intros a _; [destruct a; cbn [keeps]; rewrite ?(shape_core ns ns') by exact S; reflexivity|rewrite (shape_core ns ns') by exact S; reflexivity].
Qed.

Lemma shape_free : forall ns ns' m, sameShape ns ns' -> freeOf ns' m = freeOf ns m.
Proof.
  intros ns ns' m S. unfold freeOf. destruct (nth_error ns' m) as [x'|] eqn:E.
  - destruct (shape_back _ _ _ _ S E) as (x & E2). rewrite E2. exact (proj2 (proj2 (proj2 (proj2 S m x x' E2 E)))).
  - destruct (nth_error ns m) as [x|] eqn:E2; [|reflexivity]. apply nth_error_None in E. assert (nth_error ns m <> None) as Q by congruence. apply nth_error_Some in Q. destruct S as (L & _). lia.
Qed.
Lemma preserve : forall s t th th' ns' cs' log', good s -> nth_error (s_threads s) t = Some th -> sameShape (s_nodes s) ns' -> List.length cs' = List.length (s_cores s) ->
  (forall i x x', nth_error (s_nodes s) i = Some x -> nth_error ns' i = Some x' ->
     n_refs x' - n_ext x' - n_lost x' - (n_refs x - n_ext x - n_lost x) = total (holds i) ns' - total (holds i) (s_nodes s) + occA (isRel i) (t_stack th') - occA (isRel i) (t_stack th) /\
     0 <= n_ext x' /\ 0 <= n_lost x' /\ 0 <= n_refs x' /\ n_live x' = (0 <? n_refs x') /\
     (occA (isPending i) (t_stack th') + occ i (t_list th')) - (occA (isPending i) (t_stack th) + occ i (t_list th)) + isZ (n_fin x') - isZ (n_fin x) = isZ (n_live x) - isZ (n_live x')) ->
  (forall c k k', nth_error (s_cores s) c = Some k -> nth_error cs' c = Some k' ->
     k_count k' - isZ (k_handle k') - (k_count k - isZ (k_handle k)) =
       total (fun m => isZ (n_live m && Nat.eqb (n_core m) c)) ns' - total (fun m => isZ (n_live m && Nat.eqb (n_core m) c)) (s_nodes s) + keepers (s_nodes s) c th' - keepers (s_nodes s) c th /\
     k_deleted k' = (k_count k' =? 0) /\ occE (isDelete c) log' - occE (isDelete c) (s_log s) = isZ (k_deleted k') - isZ (k_deleted k)) ->
  wfThread (s_nodes s) th' ->
  (forall a, In a (t_stack th') -> match a with ARel n | AInst n => known (s_nodes s) n = true | ADec c => (c < List.length (s_cores s))%nat | ACall n _ => freeOf (s_nodes s) n = true | _ => True end) ->
  (forall n, In n (t_list th') -> freeOf (s_nodes s) n = true) ->
  (forall i x x', nth_error (s_nodes s) i = Some x -> nth_error ns' i = Some x' -> occE (isFree i) log' - occE (isFree i) (s_log s) = isZ (n_free x' && n_fin x') - isZ (n_free x && n_fin x)) ->
  (forall n c, In (EFree n c) log' -> In (EFree n c) (s_log s) \/ inCore (s_nodes s) c n = true) ->
  good (mkS ns' (upd t th' (s_threads s)) cs' log').
Proof.
  intros s t th th' ns' cs' log' G T SH LC HN HC HT HK HF HL HE. split; cbn [s_nodes s_threads s_cores s_log].
  - intros i x' X'. destruct (shape_back _ _ _ _ SH X') as (x & X). destruct (HN i x x' X X') as (A1 & A2 & A3 & A4 & A5 & A6).
    destruct (g_nodes s G i x X) as (B1 & _ & _ & _ & _ & B6 & B7 & B8 & B9). destruct (proj2 SH i x x' X X') as (E1 & E2 & E3 & E4).
    unfold wfNode, refsOf, phase in *. cbn [s_nodes s_threads s_cores].
    rewrite (total_upd _ _ _ _ _ _ T). rewrite (total_upd _ (fun th => occA (isPending i) (t_stack th) + occ i (t_list th)) _ _ _ _ T).
    split; [lia|]. split; [exact A2|]. split; [exact A3|]. split; [exact A4|]. split; [exact A5|]. split; [lia|]. split; [rewrite E3, E4; exact B7|]. split; [|rewrite E1, LC; exact B9].
    intros m. rewrite E2, E3, E1, (shape_core (s_nodes s) ns') by exact SH. apply B8.
  - intros c k' K'. destruct (nth_error (s_cores s) c) as [k|] eqn:K; [|exfalso; apply nth_error_None in K; assert (Q : nth_error cs' c <> None) by congruence; apply nth_error_Some in Q; lia].
    destruct (HC c k k' K K') as (A1 & A2 & A3). destruct (g_cores s G c k K) as (B1 & B2 & B3). unfold wfCore, kept in *. cbn [s_nodes s_threads s_log].
    rewrite (total_ext _ (keepers ns' c) (keepers (s_nodes s) c)) by (intros; apply shape_keepers; exact SH). rewrite (total_upd _ _ _ _ _ _ T). split; [lia|]. split; [exact A2|lia].
  - intros u I. apply (thread_mono (s_nodes s)); [intros c m H; rewrite (shape_core (s_nodes s) ns') by exact SH; exact H|]. apply upd_in in I. destruct I as [->|I]; [exact HT|exact (g_threads s G u I)].
  - intros u a I J. assert (Q : known ns' = known (s_nodes s)) by (unfold known; rewrite (proj1 SH); reflexivity). assert (Q2 : forall m, freeOf ns' m = freeOf (s_nodes s) m) by (intros m; apply shape_free; exact SH).
    rewrite Q, LC. assert (R : match a with ARel n | AInst n => known (s_nodes s) n = true | ADec c => (c < List.length (s_cores s))%nat | ACall n _ => freeOf (s_nodes s) n = true | _ => True end) by (apply upd_in in I; destruct I as [->|I]; [exact (HK a J)|exact (g_known s G u a I J)]).
    destruct a; try exact R. rewrite Q2. exact R.
  - intros u n I J. rewrite (shape_free (s_nodes s) ns') by exact SH. apply upd_in in I. destruct I as [->|I]; [exact (HF n J)|exact (g_list s G u n I J)].
  - intros i x' X'. destruct (shape_back _ _ _ _ SH X') as (x & X). pose proof (HL i x x' X X'). pose proof (g_log s G i x X). lia.
  - intros n c I. rewrite (shape_core (s_nodes s) ns') by exact SH. destruct (HE n c I) as [J|J]; [exact (g_logCore s G n c J)|exact J].
Qed.

(** ** The core's count *)
Lemma kept_ge : forall s c th, In th (s_threads s) -> keepers (s_nodes s) c th <= kept s c.
Proof.
  intros s c th I. unfold kept.
  assert (A : 0 <= total (fun m => isZ (n_live m && Nat.eqb (n_core m) c)) (s_nodes s)) by (apply total_nonneg; intros m _; destruct (_ && _); cbn; lia).
  assert (B : keepers (s_nodes s) c th <= total (keepers (s_nodes s) c) (s_threads s)).
  { apply total_ge; [|exact I]. intros u _. unfold keepers. pose proof (occA_nonneg (keeps (s_nodes s) c) (t_stack u)). assert (0 <= total (fun n => isZ (inCore (s_nodes s) c n)) (t_list u)) by (apply total_nonneg; intros m _; destruct (inCore _ _ _); cbn; lia). lia. }
  lia.
Qed.
Lemma keepers_stack : forall ns c th a, In a (t_stack th) -> keeps ns c a = true -> 1 <= keepers ns c th.
Proof. intros ns c th a I H. unfold keepers. pose proof (occA_in (keeps ns c) (t_stack th) a I H). assert (0 <= total (fun n => isZ (inCore ns c n)) (t_list th)) by (apply total_nonneg; intros m _; destruct (inCore _ _ _); cbn; lia). lia. Qed.
Lemma keepers_list : forall ns c th n, In n (t_list th) -> inCore ns c n = true -> 1 <= keepers ns c th.
Proof.
  intros ns c th n I H. unfold keepers. pose proof (occA_nonneg (keeps ns c) (t_stack th)).
  assert (isZ (inCore ns c n) <= total (fun n => isZ (inCore ns c n)) (t_list th)) by (apply (total_ge _ (fun n => isZ (inCore ns c n))); [intros m _; apply isZ_nonneg|exact I]). rewrite H in *. cbn [isZ] in *. lia.
Qed.
Lemma alive_ok : forall s c th, good s -> (c < List.length (s_cores s))%nat -> In th (s_threads s) -> 1 <= keepers (s_nodes s) c th -> alive (s_cores s) c = true.
Proof.
  intros s c th G L I K. unfold alive. destruct (nth_error (s_cores s) c) as [k|] eqn:E; [|apply nth_error_None in E; lia].
  destruct (g_cores s G c k E) as (A & B & _). pose proof (kept_ge s c th I). rewrite B. replace (k_count k =? 0) with false; [reflexivity|]. symmetry. apply Z.eqb_neq. destruct (k_handle k); cbn [isZ] in A; lia.
Qed.
Lemma dec_spec : forall s c th, good s -> (c < List.length (s_cores s))%nat -> In th (s_threads s) -> 1 <= keepers (s_nodes s) c th -> exists cs' log', decCore c (s_cores s) (s_log s) = Ok (cs', log') /\ List.length cs' = List.length (s_cores s) /\
  (forall d q q', nth_error (s_cores s) d = Some q -> nth_error cs' d = Some q' -> k_handle q' = k_handle q /\ k_count q' = k_count q - isZ (Nat.eqb d c) /\ k_deleted q' = (k_count q' =? 0) /\ occE (isDelete d) log' - occE (isDelete d) (s_log s) = isZ (k_deleted q') - isZ (k_deleted q)) /\
  (forall i, occE (isFree i) log' = occE (isFree i) (s_log s)) /\ (forall n d, In (EFree n d) log' -> In (EFree n d) (s_log s)).
Proof.
  intros s c th G L I K. pose proof (alive_ok s c th G L I K) as AL. unfold alive in AL. unfold decCore. destruct (nth_error (s_cores s) c) as [k|] eqn:E; [|discriminate].
  destruct (g_cores s G c k E) as (A & B & C). pose proof (kept_ge s c th I). apply negb_true_iff in AL. rewrite AL. destruct (Z.eqb_spec (k_count k - 1) 0) as [Z0|Z0].
  - assert (H0 : k_handle k = false) by (destruct (k_handle k); [cbn [isZ] in A; lia|reflexivity]). rewrite H0. eexists. eexists. split; [reflexivity|]. split; [apply upd_length|]. split; [|split; [reflexivity|intros n d [J|J]; [discriminate|exact J]]].
    intros d q q' Q Q'. destruct (Nat.eqb_spec d c) as [->|NE].
    + rewrite (upd_same _ _ _ _ _ E) in Q'. injection Q' as <-. rewrite E in Q. injection Q as <-. cbn [k_handle k_count k_deleted isZ]. split; [congruence|]. split; [lia|]. split; [reflexivity|]. rewrite AL. unfold occE. rewrite total_cons. cbn [isDelete]. rewrite Nat.eqb_refl. cbn [isZ]. lia.
    + rewrite upd_other in Q' by congruence. rewrite Q in Q'. injection Q' as <-. cbn [isZ]. split; [reflexivity|]. split; [lia|]. split; [exact (proj1 (proj2 (g_cores s G d q Q)))|]. unfold occE. rewrite total_cons. cbn [isDelete]. apply Nat.eqb_neq in NE. rewrite Nat.eqb_sym in NE. rewrite NE. cbn [isZ]. lia.
  - eexists. eexists. split; [reflexivity|]. split; [apply upd_length|]. split; [|split; [reflexivity|auto]].
    intros d q q' Q Q'. destruct (Nat.eqb_spec d c) as [->|NE].
    + rewrite (upd_same _ _ _ _ _ E) in Q'. injection Q' as <-. rewrite E in Q. injection Q as <-. cbn [k_handle k_count k_deleted isZ]. split; [reflexivity|]. split; [lia|]. split; [symmetry; apply Z.eqb_neq; exact Z0|]. rewrite AL. cbn [isZ]. lia.
    + rewrite upd_other in Q' by congruence. rewrite Q in Q'. injection Q' as <-. cbn [isZ]. split; [reflexivity|]. split; [lia|]. split; [exact (proj1 (proj2 (g_cores s G d q Q)))|]. lia.
Qed.

(** ** Shapes of threads *)
Lemma wf_head : forall ns b r d l, wfThread ns (mkT (b :: r) d l) ->
  match b with
  | ARel _ | AInst _ => (d = 0%nat /\ l = [] /\ forallb flatAct r = true) \/
      (d = 1%nat /\ exists c k a, forallb flatAct k = true /\ forallb (inCore ns c) l = true /\ coreAct ns c b = true /\ forallb (coreAct ns c) a = true /\ r = a ++ ADec c :: ALoop c :: ALeave :: k)
  | ALoop c => d = 1%nat /\ exists k, forallb flatAct k = true /\ forallb (inCore ns c) l = true /\ r = ALeave :: k
  | ACall n c => d = 1%nat /\ inCore ns c n = true /\ exists k, forallb flatAct k = true /\ forallb (inCore ns c) l = true /\ r = ADec c :: ALoop c :: ALeave :: k
  | ADec c => (d = 0%nat /\ l = [] /\ r = []) \/ (d = 1%nat /\ exists k, forallb flatAct k = true /\ forallb (inCore ns c) l = true /\ r = ALoop c :: ALeave :: k)
  | ALeave => (d = 1%nat /\ l = [] /\ forallb flatAct r = true) \/
      (d = 2%nat /\ exists c k a, forallb flatAct k = true /\ forallb (inCore ns c) l = true /\ forallb (coreAct ns c) a = true /\ r = a ++ ADec c :: ALoop c :: ALeave :: k)
  end.
Proof.
  intros ns b r d l [(D & L & W)|[(D & k & F & W)|(D & k & c & a & F & L & A & E)]]; cbn in D; subst d.
  - cbn in L, W. destruct W as [W|(c & W)]; [apply andb_prop in W; destruct W as (W1 & W2); destruct b; try discriminate; left; auto|injection W as -> ->; left; auto].
  - cbn in W. destruct W as [(W & L)|(c & L & [W|[(n & N & W)|(a & A & W)]])].
    + injection W as -> ->. left. auto.
    + injection W as -> ->. split; [reflexivity|]. eauto.
    + injection W as -> ->. split; [reflexivity|]. split; [exact N|]. eauto.
    + destruct a as [|b' a]; cbn in W; injection W as -> ->.
      * right. split; [reflexivity|]. eauto.
      * cbn in A. apply andb_prop in A. destruct A as (A1 & A2). destruct b'; try discriminate; right; (split; [reflexivity|]); exists c, k, a; auto.
  - cbn in L, E. injection E as -> ->. right. split; [reflexivity|]. exists c, k, a. auto.
Qed.
Lemma wf_flat : forall ns k, forallb flatAct k = true -> wfThread ns (mkT k 0 []).
Proof. intros ns k H. left. cbn. auto. Qed.
Lemma wf_call : forall ns c k a l, forallb flatAct k = true -> forallb (inCore ns c) l = true -> forallb (coreAct ns c) a = true -> wfThread ns (mkT (a ++ ADec c :: ALoop c :: ALeave :: k) 1 l).
Proof. intros ns c k a l F L A. right. left. split; [reflexivity|]. exists k. split; [exact F|]. right. exists c. split; [exact L|]. right. right. eauto. Qed.
Lemma core_known : forall ns c n, inCore ns c n = true -> exists x, nth_error ns n = Some x /\ n_core x = c.
Proof. intros ns c n H. unfold inCore, coreOf in H. destruct (nth_error ns n) as [x|]; [|discriminate]. cbn in H. apply Nat.eqb_eq in H. eauto. Qed.
Lemma core_is : forall ns n x c, nth_error ns n = Some x -> inCore ns c n = Nat.eqb (n_core x) c.
Proof. intros ns n x c H. unfold inCore, coreOf. rewrite H. reflexivity. Qed.
Lemma known_nth : forall ns n, known ns n = true -> exists x : node, nth_error ns n = Some x.
Proof. intros ns n H. unfold known in H. apply Nat.ltb_lt in H. destruct (nth_error ns n) as [x|] eqn:E; [eauto|]. apply nth_error_None in E. lia. Qed.
Lemma pending_one : forall s n x th a, good s -> nth_error (s_nodes s) n = Some x -> In th (s_threads s) -> In a (t_stack th) -> isPending n a = true -> n_live x = false /\ n_fin x = false.
Proof.
  intros s n x th a G X T I P. destruct (g_nodes s G n x X) as (_ & _ & _ & _ & _ & H & _). unfold phase in H.
  assert (Q : occA (isPending n) (t_stack th) + occ n (t_list th) <= total (fun th => occA (isPending n) (t_stack th) + occ n (t_list th)) (s_threads s)).
  { apply (total_ge _ (fun th => occA (isPending n) (t_stack th) + occ n (t_list th))); [|exact T]. intros u _. pose proof (occA_nonneg (isPending n) (t_stack u)). pose proof (occ_nonneg n (t_list u)). lia. }
  pose proof (occA_in _ _ _ I P). pose proof (occ_nonneg n (t_list th)). destruct (n_live x), (n_fin x); cbn [isZ] in H; try lia; auto.
Qed.

(** ** Every step of a thread *)
Lemma upd_total : forall A (f : A -> Z) l i x y, nth_error l i = Some y -> f x = f y -> total f (upd i x l) = total f l.
Proof. intros. rewrite (total_upd _ _ _ _ _ _ H). lia. Qed.
Lemma step_rel : forall s t th n r, good s -> nth_error (s_threads s) t = Some th -> t_stack th = ARel n :: r -> exists s', step s t = Ok s' /\ good s'.
Proof.
  intros s t th n r G T ST. assert (IT : In th (s_threads s)) by (apply nth_error_In in T; exact T).
  destruct th as [st d l]. cbn in ST. subst st. pose proof (wf_head _ _ _ _ _ (g_threads s G _ IT)) as W. cbn beta iota in W.
  destruct (known_nth _ _ (g_known s G _ (ARel n) IT (or_introl eq_refl))) as (x & X).
  destruct (g_nodes s G n x X) as (N1 & N2 & N3 & N4 & N5 & N6 & N7 & N8 & N9).
  assert (RP : 1 <= n_refs x).
  { rewrite N1. unfold refsOf. assert (0 <= total (holds n) (s_nodes s)) by (apply total_nonneg; intros; apply holds_nonneg).
    assert (occA (isRel n) (t_stack (mkT (ARel n :: r) d l)) <= total (fun th => occA (isRel n) (t_stack th)) (s_threads s)) by (apply (total_ge _ (fun th => occA (isRel n) (t_stack th))); [intros; apply occA_nonneg|exact IT]).
    pose proof (occA_in (isRel n) (ARel n :: r) (ARel n) (or_introl eq_refl) (Nat.eqb_refl n)). cbn [t_stack] in *. lia. }
  assert (LV : n_live x = true) by (rewrite N5; apply Z.ltb_lt; lia).
  unfold step. rewrite T. cbn [t_stack t_depth t_list]. rewrite X, LV. cbn [negb].
  destruct (Z.eqb_spec (n_refs x) 1) as [R1|R1]; eexists; (split; [reflexivity|]); eapply (preserve s t _ _ _ _ _ G T); try reflexivity.
  - apply (shape_upd _ _ x); auto.
  - intros i y y' Y Y'. cbn [t_stack t_list]. rewrite occA_app, !occA_cons, occA_app, !occA_cons, occA_rel, (occA_none (isPending i)) by reflexivity. cbn [isRel isPending].
    rewrite (total_upd _ _ _ _ _ _ X). unfold holds at 2 3. cbn [n_live n_fin n_deps n_inst withRefs]. rewrite LV.
    destruct (Nat.eqb_spec n i) as [->|NE].
    + rewrite (upd_same _ _ _ _ _ X) in Y'. injection Y' as <-. rewrite X in Y. injection Y as <-. cbn [n_refs n_ext n_lost n_live n_fin withRefs isZ]. rewrite LV. cbn [isZ]. repeat split; lia.
    + rewrite upd_other in Y' by exact NE. rewrite Y in Y'. injection Y' as <-. destruct (g_nodes s G i y Y) as (Q1 & Q2 & Q3 & Q4 & Q5 & _). cbn [isZ]. repeat split; try lia. exact Q5.
  - intros c k k' K K'. rewrite K in K'. injection K' as <-. destruct (g_cores s G c k K) as (_ & C2 & _). split; [|split; [exact C2|lia]].
    unfold keepers. cbn [t_stack t_list]. rewrite occA_app, !occA_cons, (occA_none (keeps (s_nodes s) c)) by reflexivity. cbn [keeps]. rewrite (core_is _ _ x) by exact X. rewrite (total_upd _ _ _ _ _ _ X). cbn [n_live n_core withRefs]. rewrite LV. cbn [andb isZ]. lia.
  - destruct W as [(-> & -> & W)|(-> & c & k & a & W1 & W2 & W3 & W4 & ->)].
    + apply wf_flat. rewrite forallb_app. cbn [forallb flatAct andb]. rewrite W, andb_true_r. apply forallb_forall. intros b B. apply in_map_iff in B. destruct B as (m & <- & _). reflexivity.
    + replace (map ARel (n_deps x) ++ AInst n :: a ++ ADec c :: ALoop c :: ALeave :: k) with ((map ARel (n_deps x) ++ AInst n :: a) ++ ADec c :: ALoop c :: ALeave :: k) by (rewrite <- app_assoc; reflexivity).
      apply wf_call; auto. rewrite forallb_app. cbn [forallb]. cbn [coreAct] in W3. cbn [coreAct]. rewrite W3, W4, andb_true_r. apply forallb_forall. intros b B. apply in_map_iff in B. destruct B as (m & <- & M). cbn [coreAct].
      rewrite (core_is _ _ x) in W3 by exact X. apply Nat.eqb_eq in W3. rewrite <- W3. exact (proj2 (N8 m (or_introl M))).
  - cbn [t_stack]. intros b B. apply in_app_or in B. destruct B as [B|[<-|B]].
    + apply in_map_iff in B. destruct B as (m & <- & M). destruct (N8 m (or_introl M)) as (ML & _). unfold known. apply Nat.ltb_lt. apply nth_error_Some_bound in X. lia.
    + exact (g_known s G _ (ARel n) IT (or_introl eq_refl)).
    + exact (g_known s G _ b IT (or_intror B)).
  - cbn [t_list]. intros m M. exact (g_list s G _ m IT M).
  - intros i y y' Y Y'. destruct (Nat.eqb_spec n i) as [->|NE].
    + rewrite (upd_same _ _ _ _ _ X) in Y'. injection Y' as <-. rewrite X in Y. injection Y as <-. cbn. lia.
    + rewrite upd_other in Y' by exact NE. rewrite Y in Y'. injection Y' as <-. lia.
  - intros m c I. left. exact I.
  - apply (shape_upd _ _ x); auto.
  - intros i y y' Y Y'. cbn [t_stack t_list]. rewrite !occA_cons. cbn [isRel isPending].
    rewrite (upd_total _ _ _ _ _ _ X) by (unfold holds; cbn [n_live n_fin n_deps n_inst withRefs]; rewrite LV; reflexivity).
    destruct (Nat.eqb_spec n i) as [->|NE].
    + rewrite (upd_same _ _ _ _ _ X) in Y'. injection Y' as <-. rewrite X in Y. injection Y as <-. cbn [n_refs n_ext n_lost n_live n_fin withRefs isZ]. rewrite LV. cbn [isZ]. repeat split; try lia.
    + rewrite upd_other in Y' by exact NE. rewrite Y in Y'. injection Y' as <-. destruct (g_nodes s G i y Y) as (Q1 & Q2 & Q3 & Q4 & Q5 & _). cbn [isZ]. repeat split; try lia. exact Q5.
  - intros c k k' K K'. rewrite K in K'. injection K' as <-. destruct (g_cores s G c k K) as (_ & C2 & _). split; [|split; [exact C2|lia]].
    unfold keepers. cbn [t_stack t_list]. rewrite !occA_cons. cbn [keeps isZ]. rewrite (upd_total _ _ _ _ _ _ X) by (cbn [n_live n_core withRefs]; rewrite LV; reflexivity). lia.
  - destruct W as [(-> & -> & W)|(-> & c & k & a & W1 & W2 & W3 & W4 & ->)]; [apply wf_flat; exact W|apply wf_call; auto].
  - cbn [t_stack]. intros b B. exact (g_known s G _ b IT (or_intror B)).
  - cbn [t_list]. intros m M. exact (g_list s G _ m IT M).
  - intros i y y' Y Y'. destruct (Nat.eqb_spec n i) as [->|NE].
    + rewrite (upd_same _ _ _ _ _ X) in Y'. injection Y' as <-. rewrite X in Y. injection Y as <-. cbn. lia.
    + rewrite upd_other in Y' by exact NE. rewrite Y in Y'. injection Y' as <-. lia.
  - intros m c I. left. exact I.
Qed.
(** A thread that leaves the nodes alone. *)
Lemma preserve_nodes : forall s t th th' cs' log', good s -> nth_error (s_threads s) t = Some th -> List.length cs' = List.length (s_cores s) ->
  (forall i, occA (isRel i) (t_stack th') = occA (isRel i) (t_stack th) /\ occA (isPending i) (t_stack th') + occ i (t_list th') = occA (isPending i) (t_stack th) + occ i (t_list th)) ->
  (forall c k k', nth_error (s_cores s) c = Some k -> nth_error cs' c = Some k' ->
     k_count k' - isZ (k_handle k') - (k_count k - isZ (k_handle k)) = keepers (s_nodes s) c th' - keepers (s_nodes s) c th /\
     k_deleted k' = (k_count k' =? 0) /\ occE (isDelete c) log' - occE (isDelete c) (s_log s) = isZ (k_deleted k') - isZ (k_deleted k)) ->
  wfThread (s_nodes s) th' ->
  (forall a, In a (t_stack th') -> match a with ARel n | AInst n => known (s_nodes s) n = true | ADec c => (c < List.length (s_cores s))%nat | ACall n _ => freeOf (s_nodes s) n = true | _ => True end) ->
  (forall n, In n (t_list th') -> freeOf (s_nodes s) n = true) ->
  (forall i, occE (isFree i) log' = occE (isFree i) (s_log s)) ->
  (forall n c, In (EFree n c) log' -> In (EFree n c) (s_log s)) ->
  good (mkS (s_nodes s) (upd t th' (s_threads s)) cs' log').
Proof.
  intros s t th th' cs' log' G T LC HN HC HT HK HF HL HE. apply (preserve s t th); auto.
  - apply shape_refl.
  - intros i x x' X X'. rewrite X in X'. injection X' as <-. destruct (HN i) as (A & B). destruct (g_nodes s G i x X) as (N1 & N2 & N3 & N4 & N5 & _). repeat split; try lia. exact N5.
  - intros c k k' K K'. destruct (HC c k k' K K') as (A & B). split; [lia|exact B].
  - intros i x x' X X'. rewrite X in X'. injection X' as <-. rewrite HL. lia.
Qed.
Lemma same_cores : forall s c k k', good s -> nth_error (s_cores s) c = Some k -> nth_error (s_cores s) c = Some k' -> k' = k /\ k_deleted k = (k_count k =? 0).
Proof. intros s c k k' G K K'. rewrite K in K'. injection K' as <-. split; [reflexivity|exact (proj1 (proj2 (g_cores s G c k K)))]. Qed.

Lemma step_inst : forall s t th n r, good s -> nth_error (s_threads s) t = Some th -> t_stack th = AInst n :: r -> exists s', step s t = Ok s' /\ good s'.
Proof.
  intros s t th n r G T ST. assert (IT : In th (s_threads s)) by (apply nth_error_In in T; exact T).
  destruct th as [st d l]. cbn in ST. subst st. pose proof (wf_head _ _ _ _ _ (g_threads s G _ IT)) as W. cbn beta iota in W.
  pose proof (g_known s G _ (AInst n) IT (or_introl eq_refl)) as KN. destruct (known_nth _ _ KN) as (x & X).
  destruct (g_nodes s G n x X) as (N1 & N2 & N3 & N4 & N5 & N6 & N7 & N8 & N9).
  destruct (pending_one s n x _ (AInst n) G X IT (or_introl eq_refl) (Nat.eqb_refl n)) as (LV & FI).
  assert (KE : 1 <= keepers (s_nodes s) (n_core x) (mkT (AInst n :: r) d l)) by (apply (keepers_stack _ _ _ (AInst n)); [left; reflexivity|cbn; rewrite (core_is _ _ x) by exact X; apply Nat.eqb_refl]).
  unfold step. rewrite T. cbn [t_stack t_depth t_list]. rewrite X, (alive_ok s _ _ G N9 IT KE). cbn [negb].
  set (st := if Nat.eqb (S d) 1 then ALoop (n_core x) :: ALeave :: r else ALeave :: r).
  assert (S0 : forall f, (forall c, f (ALoop c) = false) -> f ALeave = false -> occA f st = occA f r).
  { intros f F1 F2. unfold st. destruct (Nat.eqb _ _); rewrite !occA_cons, ?F1, F2; cbn [isZ]; lia. }
  assert (SK : forall a, In a st -> match a with ARel n | AInst n => known (s_nodes s) n = true | ADec c => (c < List.length (s_cores s))%nat | ACall n _ => freeOf (s_nodes s) n = true | _ => True end).
  { intros a A. assert (Q : In a r \/ a = ALeave \/ exists c, a = ALoop c) by (unfold st in A; destruct (Nat.eqb _ _); cbn in A; intuition eauto). destruct Q as [Q|[->|(c & ->)]]; [exact (g_known s G _ a IT (or_intror Q))|exact I|exact I]. }
  assert (SW : forall l', (forall c, forallb (inCore (s_nodes s) c) l = true -> inCore (s_nodes s) c n = true -> forallb (inCore (s_nodes s) c) l' = true) -> wfThread (s_nodes s) (mkT st (S d) l')).
  { intros l' HL. unfold st. destruct W as [(-> & -> & W)|(-> & c & k & a & W1 & W2 & W3 & W4 & ->)]; cbn [Nat.eqb].
    - right. left. split; [reflexivity|]. exists r. split; [exact W|]. right. exists (n_core x). split; [|left; reflexivity]. apply HL; [reflexivity|]. rewrite (core_is _ _ x) by exact X. apply Nat.eqb_refl.
    - right. right. split; [reflexivity|]. exists k, c, a. split; [exact W1|]. split; [apply HL; [exact W2|exact W3]|]. split; [exact W4|reflexivity]. }
  destruct (n_free x) eqn:FR.
  - eexists. split; [reflexivity|]. eapply (preserve_nodes s t _ _ _ _ G T); try reflexivity; cbn [t_stack t_list].
    + intros i. rewrite !S0, !occA_cons, occ_cons by reflexivity. cbn [isRel isPending isZ]. lia.
    + intros c k k' K K'. destruct (same_cores _ _ _ _ G K K') as (-> & C2). split; [|split; [exact C2|lia]]. unfold keepers. cbn [t_stack t_list]. rewrite S0, occA_cons, total_cons by reflexivity. cbn [keeps]. lia.
    + apply SW. intros c HL HC. cbn. rewrite HC. exact HL.
    + exact SK.
    + intros m [<-|M]; [unfold freeOf; rewrite X; exact FR|exact (g_list s G _ m IT M)].
    + auto.
  - destruct (dec_spec s (n_core x) _ G N9 IT KE) as (cs' & log' & DE & D1 & D2 & D3 & D4). rewrite DE. cbn [obind fst snd].
    eexists. split; [reflexivity|]. eapply (preserve s t _ _ _ _ _ G T); cbn [t_stack t_list].
    + apply (shape_upd _ _ x); auto.
    + exact D1.
    + intros i y y' Y Y'. rewrite !S0, !occA_cons by reflexivity. cbn [isRel isPending isZ].
      rewrite (upd_total _ _ _ _ _ _ X) by (unfold holds; cbn [n_live n_fin n_deps n_inst finished]; rewrite (N7 eq_refl), FI; reflexivity).
      destruct (Nat.eqb_spec n i) as [->|NE].
      * rewrite (upd_same _ _ _ _ _ X) in Y'. injection Y' as <-. rewrite X in Y. injection Y as <-. cbn [n_refs n_ext n_lost n_live n_fin finished isZ]. rewrite FI. cbn [isZ]. repeat split; try lia; exact N5.
      * rewrite upd_other in Y' by exact NE. rewrite Y in Y'. injection Y' as <-. destruct (g_nodes s G i y Y) as (Q1 & Q2 & Q3 & Q4 & Q5 & _). cbn [isZ]. repeat split; try lia. exact Q5.
    + intros c k k' K K'. destruct (D2 c k k' K K') as (E1 & E2 & E3 & E4). split; [|split; [exact E3|exact E4]]. rewrite E1, E2. unfold keepers. cbn [t_stack t_list]. rewrite S0, occA_cons by reflexivity. cbn [keeps]. rewrite (core_is _ _ x) by exact X.
      rewrite (upd_total _ _ _ _ _ _ X) by reflexivity. rewrite (Nat.eqb_sym c). lia.
    + apply SW. intros c HL HC. exact HL.
    + exact SK.
    + intros m M. exact (g_list s G _ m IT M).
    + intros i y y' Y Y'. rewrite D3. destruct (Nat.eqb_spec n i) as [->|NE].
      * rewrite (upd_same _ _ _ _ _ X) in Y'. injection Y' as <-. rewrite X in Y. injection Y as <-. cbn. rewrite FR. cbn. lia.
      * rewrite upd_other in Y' by exact NE. rewrite Y in Y'. injection Y' as <-. lia.
    + intros m c M. left. exact (D4 m c M).
Qed.

Lemma step_loop : forall s t th c r, good s -> nth_error (s_threads s) t = Some th -> t_stack th = ALoop c :: r -> exists s', step s t = Ok s' /\ good s'.
Proof.
  intros s t th c r G T ST. assert (IT : In th (s_threads s)) by (apply nth_error_In in T; exact T).
  destruct th as [st d l]. cbn in ST. subst st. pose proof (wf_head _ _ _ _ _ (g_threads s G _ IT)) as W. cbn beta iota in W. destruct W as (-> & k & W1 & W2 & ->).
  unfold step. rewrite T. cbn [t_stack t_depth t_list]. destruct l as [|n l].
  - eexists. split; [reflexivity|]. eapply (preserve_nodes s t _ _ _ _ G T); try reflexivity; cbn [t_stack t_list].
    + intros i. rewrite !occA_cons. cbn [isRel isPending isZ]. split; reflexivity.
    + intros c' q q' K K'. destruct (same_cores _ _ _ _ G K K') as (-> & C2). split; [|split; [exact C2|lia]]. unfold keepers. cbn [t_stack t_list]. rewrite !occA_cons. cbn [keeps isZ]. lia.
    + right. left. split; [reflexivity|]. exists k. split; [exact W1|]. left. auto.
    + intros a A. exact (g_known s G _ a IT (or_intror A)).
    + intros m [].
    + auto.
  - cbn [forallb] in W2. apply andb_prop in W2. destruct W2 as (CN & W2). destruct (core_known _ _ _ CN) as (x & X & XC).
    destruct (g_nodes s G n x X) as (_ & _ & _ & _ & _ & _ & _ & _ & N9).
    assert (KE : 1 <= keepers (s_nodes s) c (mkT (ALoop c :: ALeave :: k) 1 (n :: l))) by (apply (keepers_list _ _ _ n); [left; reflexivity|exact CN]).
    rewrite (alive_ok s c _ G ltac:(congruence) IT KE). eexists. split; [reflexivity|]. eapply (preserve_nodes s t _ _ _ _ G T); try reflexivity; cbn [t_stack t_list].
    + intros i. rewrite !occA_cons, occ_cons. cbn [isRel isPending isZ]. lia.
    + intros c' q q' K K'. destruct (same_cores _ _ _ _ G K K') as (-> & C2). split; [|split; [exact C2|lia]]. unfold keepers. cbn [t_stack t_list]. rewrite !occA_cons, total_cons. cbn [keeps isZ]. rewrite (core_is _ _ x) by exact X. rewrite XC. lia.
    + right. left. split; [reflexivity|]. exists k. split; [exact W1|]. right. exists c. split; [exact W2|]. right. left. exists n. auto.
    + pose proof (g_list s G _ n IT (or_introl eq_refl)) as FN. intros a [<-|[<-|A]]; [exact FN|lia|]. exact (g_known s G _ a IT A).
    + intros m M. exact (g_list s G _ m IT (or_intror M)).
    + auto.
Qed.

Lemma step_call : forall s t th n c r, good s -> nth_error (s_threads s) t = Some th -> t_stack th = ACall n c :: r -> exists s', step s t = Ok s' /\ good s'.
Proof.
  intros s t th n c r G T ST. assert (IT : In th (s_threads s)) by (apply nth_error_In in T; exact T).
  destruct th as [st d l]. cbn in ST. subst st. pose proof (wf_head _ _ _ _ _ (g_threads s G _ IT)) as W. cbn beta iota in W. destruct W as (-> & CN & k & W1 & W2 & ->).
  destruct (core_known _ _ _ CN) as (x & X & XC). destruct (g_nodes s G n x X) as (N1 & N2 & N3 & N4 & N5 & N6 & N7 & N8 & N9).
  destruct (pending_one s n x _ (ACall n c) G X IT (or_introl eq_refl) (Nat.eqb_refl n)) as (LV & FI).
  pose proof (g_known s G _ (ACall n c) IT (or_introl eq_refl)) as FR. cbn beta iota in FR. unfold freeOf in FR. rewrite X in FR.
  assert (KE : 1 <= keepers (s_nodes s) c (mkT (ACall n c :: ADec c :: ALoop c :: ALeave :: k) 1 l)) by (apply (keepers_stack _ _ _ (ADec c)); [right; left; reflexivity|cbn; apply Nat.eqb_refl]).
  unfold step. rewrite T. cbn [t_stack t_depth t_list]. rewrite X, FI, (alive_ok s c _ G ltac:(congruence) IT KE). cbn [negb orb].
  eexists. split; [reflexivity|]. eapply (preserve s t _ _ _ _ _ G T); try reflexivity; cbn [t_stack t_list].
  - apply (shape_upd _ _ x); auto.
  - intros i y y' Y Y'. rewrite !occA_app, !occA_cons, occA_rel, (occA_none (isPending i)) by reflexivity. cbn [isRel isPending isZ].
    rewrite (total_upd _ _ _ _ _ _ X). unfold holds at 2 3. cbn [n_live n_fin n_deps n_inst finished]. rewrite FI, LV.
    destruct (Nat.eqb_spec n i) as [->|NE].
    + rewrite (upd_same _ _ _ _ _ X) in Y'. injection Y' as <-. rewrite X in Y. injection Y as <-. cbn [n_refs n_ext n_lost n_live n_fin finished isZ]. rewrite FI. cbn [isZ]. repeat split; try lia; exact N5.
    + rewrite upd_other in Y' by exact NE. rewrite Y in Y'. injection Y' as <-. destruct (g_nodes s G i y Y) as (Q1 & Q2 & Q3 & Q4 & Q5 & _). cbn [isZ]. repeat split; try lia. exact Q5.
  - intros c' q q' K K'. destruct (same_cores _ _ _ _ G K K') as (-> & C2). split; [|split; [exact C2|unfold occE; rewrite total_cons; cbn [isDelete isZ]; lia]]. unfold keepers. cbn [t_stack t_list]. rewrite occA_app, !occA_cons, (occA_none (keeps (s_nodes s) c')) by reflexivity. cbn [keeps isZ]. rewrite (upd_total _ _ _ _ _ _ X) by reflexivity. lia.
  - apply wf_call; auto. apply forallb_forall. intros b B. apply in_map_iff in B. destruct B as (m & <- & M). cbn [coreAct]. rewrite <- XC. exact (proj2 (N8 m (or_intror M))).
  - intros b B. apply in_app_or in B. destruct B as [B|B]; [|exact (g_known s G _ b IT (or_intror B))]. apply in_map_iff in B. destruct B as (m & <- & M). destruct (N8 m (or_intror M)) as (ML & _). unfold known. apply Nat.ltb_lt. apply nth_error_Some_bound in X. lia.
  - intros m M. exact (g_list s G _ m IT M).
  - intros i y y' Y Y'. unfold occE. rewrite total_cons. cbn [isFree]. destruct (Nat.eqb_spec n i) as [->|NE].
    + rewrite (upd_same _ _ _ _ _ X) in Y'. injection Y' as <-. rewrite X in Y. injection Y as <-. cbn [n_free n_fin finished]. rewrite FR, FI. cbn [andb isZ]. lia.
    + rewrite upd_other in Y' by exact NE. rewrite Y in Y'. injection Y' as <-. cbn [isZ]. lia.
  - intros m c' [[= <- <-]|I]; [right; exact CN|left; exact I].
Qed.

Lemma step_dec : forall s t th c r, good s -> nth_error (s_threads s) t = Some th -> t_stack th = ADec c :: r -> exists s', step s t = Ok s' /\ good s'.
Proof.
  intros s t th c r G T ST. assert (IT : In th (s_threads s)) by (apply nth_error_In in T; exact T).
  destruct th as [st d l]. cbn in ST. subst st. pose proof (wf_head _ _ _ _ _ (g_threads s G _ IT)) as W. cbn beta iota in W.
  assert (KE : 1 <= keepers (s_nodes s) c (mkT (ADec c :: r) d l)) by (apply (keepers_stack _ _ _ (ADec c)); [left; reflexivity|cbn; apply Nat.eqb_refl]).
  pose proof (g_known s G _ (ADec c) IT (or_introl eq_refl)) as CL. cbn beta iota in CL.
  destruct (dec_spec s c _ G CL IT KE) as (cs' & log' & DE & D1 & D2 & D3 & D4). unfold step. rewrite T. cbn [t_stack t_depth t_list]. rewrite DE. cbn [obind fst snd].
  eexists. split; [reflexivity|]. eapply (preserve_nodes s t _ _ _ _ G T); cbn [t_stack t_list].
  - exact D1.
  - intros i. rewrite !occA_cons. cbn [isRel isPending isZ]. split; reflexivity.
  - intros c' k k' K K'. destruct (D2 c' k k' K K') as (E1 & E2 & E3 & E4). split; [|split; [exact E3|exact E4]]. rewrite E1, E2. unfold keepers. cbn [t_stack t_list]. rewrite occA_cons. cbn [keeps]. rewrite (Nat.eqb_sym c' c). lia.
  - destruct W as [(-> & -> & ->)|(-> & k & W1 & W2 & ->)]; [apply wf_flat; reflexivity|]. right. left. split; [reflexivity|]. exists k. split; [exact W1|]. right. exists c. auto.
  - intros a A. exact (g_known s G _ a IT (or_intror A)).
  - intros m M. exact (g_list s G _ m IT M).
  - exact D3.
  - exact D4.
Qed.
Lemma step_leave : forall s t th r, good s -> nth_error (s_threads s) t = Some th -> t_stack th = ALeave :: r -> exists s', step s t = Ok s' /\ good s'.
Proof.
  intros s t th r G T ST. assert (IT : In th (s_threads s)) by (apply nth_error_In in T; exact T).
  destruct th as [st d l]. cbn in ST. subst st. pose proof (wf_head _ _ _ _ _ (g_threads s G _ IT)) as W. cbn beta iota in W.
  unfold step. rewrite T. cbn [t_stack t_depth t_list].
  eexists. split; [reflexivity|]. eapply (preserve_nodes s t _ _ _ _ G T); try reflexivity; cbn [t_stack t_list].
  - intros i. rewrite !occA_cons. cbn [isRel isPending isZ]. split; reflexivity.
  - intros c' q q' K K'. destruct (same_cores _ _ _ _ G K K') as (-> & C2). split; [|split; [exact C2|lia]]. unfold keepers. cbn [t_stack t_list]. rewrite !occA_cons. cbn [keeps isZ]. lia.
  - destruct W as [(-> & -> & W)|(-> & c & k & a & W1 & W2 & W3 & ->)]; [apply wf_flat; exact W|apply wf_call; auto].
  - intros a A. exact (g_known s G _ a IT (or_intror A)).
  - intros m M. exact (g_list s G _ m IT M).
  - auto.
Qed.
Lemma step_good : forall s t, good s -> step s t = Err \/ exists s', step s t = Ok s' /\ good s'.
Proof.
  intros s t G. destruct (nth_error (s_threads s) t) as [th|] eqn:T; [|left; unfold step; rewrite T; reflexivity].
  destruct (t_stack th) as [|[n|n|c|n c|c|] r] eqn:ST; [left; unfold step; rewrite T, ST; reflexivity|right..].
  - eapply step_rel; eassumption.
  - eapply step_inst; eassumption.
  - eapply step_loop; eassumption.
  - eapply step_call; eassumption.
  - eapply step_dec; eassumption.
  - eapply step_leave; eassumption.
Qed.

(** ** What users do *)
Lemma upd_id : forall A (l : list A) i x, nth_error l i = Some x -> upd i x l = l.
Proof. intros A l. induction l as [|y l IH]; intros [|i] x H; cbn in *; try discriminate; [congruence|]. rewrite (IH i x H). reflexivity. Qed.
Lemma idle_shape : forall ns th, wfThread ns th -> t_stack th = [] -> t_depth th = 0%nat /\ t_list th = [].
Proof.
  intros ns th [(D & L & _)|[(D & k & F & W)|(D & k & c & a & F & L & A & E)]] S; [auto| |congruence].
  destruct W as [(W & _)|(c & L & [W|[(n & N & W)|(a & A & W)]])]; try congruence. rewrite S in W. destruct a; discriminate.
Qed.
Lemma nodes_only : forall s ns', good s -> sameShape (s_nodes s) ns' ->
  (forall i x x', nth_error (s_nodes s) i = Some x -> nth_error ns' i = Some x' ->
     n_refs x' - n_ext x' - n_lost x' = n_refs x - n_ext x - n_lost x /\ 0 <= n_ext x' /\ 0 <= n_lost x' /\ 0 <= n_refs x' /\ n_live x' = (0 <? n_refs x') /\ n_live x' = n_live x /\ n_fin x' = n_fin x) ->
  (forall i, total (holds i) ns' = total (holds i) (s_nodes s)) -> (forall c, total (fun m => isZ (n_live m && Nat.eqb (n_core m) c)) ns' = total (fun m => isZ (n_live m && Nat.eqb (n_core m) c)) (s_nodes s)) ->
  forall t th, nth_error (s_threads s) t = Some th -> good (mkS ns' (s_threads s) (s_cores s) (s_log s)).
Proof.
  intros s ns' G SH HN HH HC t th T. rewrite <- (upd_id _ _ _ _ T). assert (IT : In th (s_threads s)) by (apply nth_error_In in T; exact T).
  eapply (preserve s t th th _ _ _ G T SH); try reflexivity.
  - intros i x x' X X'. destruct (HN i x x' X X') as (A1 & A2 & A3 & A4 & A5 & A6 & A7). rewrite HH, A6, A7. repeat split; try lia. rewrite <- A6. exact A5.
  - intros c k k' K K'. destruct (same_cores _ _ _ _ G K K') as (-> & C2). rewrite HC. split; [lia|]. split; [exact C2|lia].
  - exact (g_threads s G th IT).
  - intros a A. exact (g_known s G th a IT A).
  - intros n A. exact (g_list s G th n IT A).
  - intros i x x' X X'. destruct (HN i x x' X X') as (_ & _ & _ & _ & _ & _ & A7). destruct (proj2 SH i x x' X X') as (_ & _ & _ & E4). rewrite A7, E4. lia.
  - auto.
Qed.
Lemma shape_mapi : forall ns f, (forall i x, n_core (f i x) = n_core x /\ n_deps (f i x) = n_deps x /\ n_inst (f i x) = n_inst x /\ n_free (f i x) = n_free x) -> sameShape ns (mapi f ns).
Proof. intros ns f H. split; [apply mapi_length|]. intros i x x' X X'. rewrite mapi_nth, X in X'. injection X' as <-. apply H. Qed.

Lemma refs_ext : forall s i x, good s -> nth_error (s_nodes s) i = Some x -> n_ext x + n_lost x <= n_refs x.
Proof.
  intros s i x G X. destruct (g_nodes s G i x X) as (N1 & _). rewrite N1. unfold refsOf. assert (0 <= total (holds i) (s_nodes s)) by (apply total_nonneg; intros; apply holds_nonneg).
  assert (0 <= total (fun th => occA (isRel i) (t_stack th)) (s_threads s)) by (apply total_nonneg; intros; apply occA_nonneg). lia.
Qed.

Section Create.
  Variables (s : state) (c : nat) (k : kore) (deps inst : list nat) (free : bool).
  Hypothesis G : good s.
  Hypothesis K : nth_error (s_cores s) c = Some k.
  Hypothesis HK : k_handle k = true.
  Hypothesis HD : forallb (held true c (s_nodes s)) deps = true.
  Hypothesis HI : forallb (held true c (s_nodes s)) inst = true.
  Hypothesis HO : forallb (fun p => occ (fst p) inst <=? n_ext (snd p)) (numbered 0 (s_nodes s)) = true.
  Hypothesis HF : free || Nat.eqb (List.length inst) 0 = true.
  Let ns := s_nodes s.
  Let f := fun i x => withRefs x (n_live x) (n_refs x + occ i deps) (n_ext x - occ i inst) (n_lost x).
  Let new := mkN c deps inst free true false 1 1 0.
  Let ns' := mapi f ns ++ [new].
  Lemma held_in : forall l m, forallb (held true c ns) l = true -> In m l -> exists x, nth_error ns m = Some x /\ 0 < n_ext x /\ n_core x = c.
  Proof.
    intros l m H I. rewrite forallb_forall in H. specialize (H m I). unfold held in H. destruct (nth_error ns m) as [x|]; [|discriminate]. apply andb_prop in H. destruct H as (H1 & H2). cbn in H2. apply Nat.eqb_eq in H2. apply Z.ltb_lt in H1. eauto.
  Qed.
  Lemma new_nth : forall i x', nth_error ns' i = Some x' -> (exists x, nth_error ns i = Some x /\ x' = f i x) \/ (i = List.length ns /\ x' = new).
  Proof.
    intros i x' H. unfold ns' in H. destruct (Nat.lt_ge_cases i (List.length ns)) as [L|L].
    - left. rewrite nth_error_app1 in H by (rewrite mapi_length; exact L). rewrite mapi_nth in H. destruct (nth_error ns i) as [x|]; [|discriminate]. injection H as <-. eauto.
    - right. rewrite nth_error_app2 in H by (rewrite mapi_length; exact L). rewrite mapi_length in H. destruct (i - List.length ns)%nat as [|q] eqn:E; [|destruct q; discriminate]. injection H as <-. split; [lia|reflexivity].
  Qed.
  Lemma new_core : forall d m, (m < List.length ns)%nat -> inCore ns' d m = inCore ns d m.
  Proof.
    intros d m L. unfold inCore, coreOf, ns'. rewrite nth_error_app1 by (rewrite mapi_length; exact L). rewrite mapi_nth. destruct (nth_error ns m); reflexivity.
  Qed.
  Lemma new_mono : forall d m, inCore ns d m = true -> inCore ns' d m = true.
  Proof. intros d m H. destruct (core_known _ _ _ H) as (x & X & _). rewrite new_core; [exact H|]. exact (nth_error_Some_bound _ _ _ _ X). Qed.
  Lemma new_free : forall m, freeOf ns m = true -> freeOf ns' m = true.
  Proof.
    intros m H. unfold freeOf in *. destruct (nth_error ns m) as [x|] eqn:E; [|discriminate]. unfold ns'. rewrite nth_error_app1 by (rewrite mapi_length; exact (nth_error_Some_bound _ _ _ _ E)). rewrite mapi_nth, E. exact H.
  Qed.
  Lemma free_bound : forall m, freeOf ns m = true -> (m < List.length ns)%nat.
  Proof. intros m H. unfold freeOf in H. destruct (nth_error ns m) as [x|] eqn:E; [|discriminate]. exact (nth_error_Some_bound _ _ _ _ E). Qed.
  Lemma new_keepers : forall d th, In th (s_threads s) -> keepers ns' d th = keepers ns d th.
  Proof.
    intros d th I. unfold keepers, occA. f_equal; apply total_ext; intros a A; f_equal.
    - pose proof (g_known s G th a I A) as Q. destruct a; cbn [keeps]; try reflexivity. apply new_core. unfold known in Q. apply Nat.ltb_lt in Q. exact Q.
    - apply new_core. apply free_bound. exact (g_list s G th a I A).
  Qed.
  Lemma new_holds : forall i, total (holds i) ns' = total (holds i) ns + occ i deps + occ i inst.
  Proof. intros i. unfold ns'. rewrite total_app, (total_mapi _ (holds i) f) by reflexivity. cbn. unfold holds. cbn. lia. Qed.
  Lemma new_kept : forall d, total (fun m => isZ (n_live m && Nat.eqb (n_core m) d)) ns' = total (fun m => isZ (n_live m && Nat.eqb (n_core m) d)) ns + isZ (Nat.eqb c d).
  Proof. intros d. unfold ns'. rewrite total_app, (total_mapi _ (fun m => isZ (n_live m && Nat.eqb (n_core m) d)) f) by reflexivity. rewrite total_cons. cbn [n_live n_core new andb]. cbn [total fold_right]. lia. Qed.
  Lemma create_good : good (mkS ns' (s_threads s) (upd c (mkK (k_count k + 1) (k_handle k) (k_deleted k)) (s_cores s)) (s_log s)).
  Proof.
    assert (LEN : List.length (upd c (mkK (k_count k + 1) (k_handle k) (k_deleted k)) (s_cores s)) = List.length (s_cores s)) by apply upd_length.
    split; cbn [s_nodes s_threads s_cores s_log].
    - intros i x' X'. unfold wfNode, refsOf, phase. cbn [s_nodes s_threads s_cores]. rewrite LEN, new_holds. destruct (new_nth i x' X') as [(x & X & ->)|(-> & ->)].
      + destruct (g_nodes s G i x X) as (N1 & N2 & N3 & N4 & N5 & N6 & N7 & N8 & N9). unfold refsOf, phase in *. fold ns in N1, N6, N8. cbn [n_refs n_ext n_lost n_live n_fin n_free n_inst n_deps n_core withRefs f].
        pose proof (occ_nonneg i deps). pose proof (occ_nonneg i inst).
        assert (OI : occ i inst <= n_ext x) by (rewrite forallb_forall in HO; specialize (HO _ (numbered_in _ _ _ _ X)); cbn in HO; apply Z.leb_le; exact HO).
        split; [lia|]. split; [lia|]. split; [lia|]. split; [lia|]. split.
        * rewrite N5. destruct (Z.eq_dec (occ i deps) 0) as [->|NZ]; [rewrite Z.add_0_r; reflexivity|].
          assert (ID : In i deps) by (destruct (in_dec Nat.eq_dec i deps) as [ID|ID]; [exact ID|exfalso; apply NZ; apply occ_zero; exact ID]).
          destruct (held_in deps i HD ID) as (y & Y & E & _). fold ns in X. rewrite X in Y. injection Y as <-. pose proof (refs_ext s i x G X). transitivity true; [apply Z.ltb_lt; lia|symmetry; apply Z.ltb_lt; lia].
        * split; [exact N6|]. split; [exact N7|]. split; [|exact N9]. intros m M. destruct (N8 m M) as (A & B). split; [exact A|apply new_mono; exact B].
      + assert (Z1 : total (holds (List.length ns)) ns = 0).
        { apply total_zero. intros x IX. apply In_nth_error in IX. destruct IX as (j & X). destruct (g_nodes s G j x X) as (_ & _ & _ & _ & _ & _ & _ & N8 & _). unfold holds. pose proof (nth_error_Some_bound _ _ _ _ X) as BJ. fold ns in BJ.
          rewrite !occ_zero; [destruct (n_live x), (n_fin x); reflexivity| |]; intros J; [destruct (N8 (List.length ns) (or_intror J))|destruct (N8 (List.length ns) (or_introl J))]; lia. }
        assert (Z2 : occ (List.length ns) deps = 0) by (apply occ_zero; intros J; destruct (held_in deps _ HD J) as (y & Y & _); apply nth_error_Some_bound in Y; lia).
        assert (Z3 : occ (List.length ns) inst = 0) by (apply occ_zero; intros J; destruct (held_in inst _ HI J) as (y & Y & _); apply nth_error_Some_bound in Y; lia).
        assert (Z4 : total (fun th => occA (isRel (List.length ns)) (t_stack th)) (s_threads s) = 0).
        { apply total_zero. intros th I. apply total_zero. intros a A. pose proof (g_known s G th a I A) as Q. destruct a; cbn [isRel]; try reflexivity. unfold known in Q. fold ns in Q. apply Nat.ltb_lt in Q. replace (Nat.eqb n (List.length ns)) with false by (symmetry; apply Nat.eqb_neq; lia). reflexivity. }
        assert (Z5 : total (fun th => occA (isPending (List.length ns)) (t_stack th) + occ (List.length ns) (t_list th)) (s_threads s) = 0).
        { apply total_zero. intros th I. replace (occ (List.length ns) (t_list th)) with 0 by (symmetry; apply occ_zero; intros J; pose proof (free_bound _ (g_list s G th _ I J)); lia). rewrite Z.add_0_r. apply total_zero. intros a A. pose proof (g_known s G th a I A) as Q.
          destruct a; cbn [isPending]; try reflexivity; [unfold known in Q; fold ns in Q; apply Nat.ltb_lt in Q|apply free_bound in Q]; (replace (Nat.eqb n (List.length ns)) with false by (symmetry; apply Nat.eqb_neq; lia)); reflexivity. }
        rewrite Z1, Z2, Z3, Z4, Z5. cbn [n_refs n_ext n_lost n_live n_fin n_free n_inst n_deps n_core new isZ]. split; [lia|]. split; [lia|]. split; [lia|]. split; [lia|]. split; [reflexivity|]. split; [reflexivity|].
        split; [intros ->; cbn in HF; apply Nat.eqb_eq in HF; destruct inst; [reflexivity|discriminate]|]. split; [|exact (nth_error_Some_bound _ _ _ _ K)].
        intros m [M|M]; [destruct (held_in deps m HD M) as (y & Y & _ & E)|destruct (held_in inst m HI M) as (y & Y & _ & E)]; (split; [exact (nth_error_Some_bound _ _ _ _ Y)|]); apply new_mono; rewrite (core_is _ _ y) by exact Y; rewrite E; apply Nat.eqb_refl.
    - intros d q Q. unfold wfCore, kept. cbn [s_nodes s_threads s_log]. rewrite new_kept. rewrite (total_ext _ (keepers ns' d) (keepers ns d)) by (intros; apply new_keepers; assumption). destruct (Nat.eqb_spec c d) as [<-|NE].
      + rewrite (upd_same _ _ _ _ _ K) in Q. injection Q as <-. destruct (g_cores s G c k K) as (A & B & C). unfold kept in A. fold ns in A. cbn [k_count k_handle k_deleted isZ]. split; [lia|]. split; [|exact C].
        assert (0 <= total (fun m => isZ (n_live m && Nat.eqb (n_core m) c)) ns) by (apply total_nonneg; intros; apply isZ_nonneg).
        assert (0 <= total (keepers ns c) (s_threads s)).
        { apply total_nonneg. intros th _. unfold keepers. pose proof (occA_nonneg (keeps ns c) (t_stack th)). assert (0 <= total (fun n => isZ (inCore ns c n)) (t_list th)) by (apply total_nonneg; intros; apply isZ_nonneg). lia. }
        rewrite HK in A. cbn [isZ] in A. rewrite B. transitivity false; [apply Z.eqb_neq; lia|symmetry; apply Z.eqb_neq; lia].
      + rewrite upd_other in Q by exact NE. destruct (g_cores s G d q Q) as (A & B & C). unfold kept in A. fold ns in A. cbn [isZ]. split; [lia|]. split; [exact B|exact C].
    - intros th I. apply (thread_mono ns); [exact new_mono|exact (g_threads s G th I)].
    - intros th a I A. pose proof (g_known s G th a I A) as Q. rewrite LEN. assert (LN : List.length ns' = S (List.length ns)) by (unfold ns'; rewrite app_length, mapi_length; cbn; lia).
      destruct a; try exact Q; [unfold known in *; fold ns in Q; rewrite LN; apply Nat.ltb_lt in Q; apply Nat.ltb_lt; lia|unfold known in *; fold ns in Q; rewrite LN; apply Nat.ltb_lt in Q; apply Nat.ltb_lt; lia|apply new_free; exact Q].
    - intros th n I A. apply new_free. exact (g_list s G th n I A).
    - intros i x' X'. destruct (new_nth i x' X') as [(x & X & ->)|(-> & ->)]; [exact (g_log s G i x X)|].
      cbn [n_free n_fin new]. rewrite andb_false_r. apply total_zero. intros [n d|d] A; [|reflexivity]. cbn [isFree]. apply (g_logCore s G) in A. apply core_known in A. destruct A as (x & X & _). apply nth_error_Some_bound in X. fold ns in X.
      replace (Nat.eqb n (List.length ns)) with false by (symmetry; apply Nat.eqb_neq; lia). reflexivity.
    - intros n d I. apply new_mono. exact (g_logCore s G n d I).
  Qed.
End Create.

Lemma user_good : forall s t o, good s -> user true s t o = Err \/ exists s', user true s t o = Ok s' /\ good s'.
Proof.
  intros s t o G. unfold user. destruct (nth_error (s_threads s) t) as [th|] eqn:T; [|left; reflexivity]. destruct (t_stack th) as [|a r] eqn:ST; [|left; reflexivity].
  assert (IT : In th (s_threads s)) by (apply nth_error_In in T; exact T). destruct (idle_shape _ _ (g_threads s G th IT) ST) as (TD & TL).
  destruct o as [n|n|c deps inst free|c inst|c].
  - destruct (nth_error (s_nodes s) n) as [x|] eqn:X; [|left; reflexivity]. destruct (Z.ltb_spec 0 (n_ext x)) as [E|E]; [|left; reflexivity]. right. eexists. split; [reflexivity|].
    pose proof (refs_ext s n x G X). destruct (g_nodes s G n x X) as (N1 & N2 & N3 & N4 & N5 & _).
    apply (nodes_only s _ G) with (t := t) (th := th); [apply (shape_upd _ _ x); auto| | | |exact T].
    + intros i y y' Y Y'. destruct (Nat.eqb_spec n i) as [->|NE].
      * rewrite (upd_same _ _ _ _ _ X) in Y'. injection Y' as <-. rewrite X in Y. injection Y as <-. cbn [n_refs n_ext n_lost n_live n_fin withRefs]. repeat split; try lia.
        rewrite N5. transitivity true; [apply Z.ltb_lt; lia|symmetry; apply Z.ltb_lt; lia].
      * rewrite upd_other in Y' by exact NE. rewrite Y in Y'. injection Y' as <-. destruct (g_nodes s G i y Y) as (Q1 & Q2 & Q3 & Q4 & Q5 & _). repeat split; try lia. exact Q5.
    + intros i. apply (upd_total _ _ _ _ _ _ X). reflexivity.
    + intros c. apply (upd_total _ _ _ _ _ _ X). reflexivity.
  - destruct (nth_error (s_nodes s) n) as [x|] eqn:X; [|left; reflexivity]. destruct (Z.ltb_spec 0 (n_ext x)) as [E|E]; [|left; reflexivity]. right. eexists. split; [reflexivity|].
    destruct (g_nodes s G n x X) as (N1 & N2 & N3 & N4 & N5 & _). eapply (preserve s t th _ _ _ _ G T); try reflexivity; cbn [t_stack t_list]; rewrite ?ST, ?TL, ?TD.
    + apply (shape_upd _ _ x); auto.
    + intros i y y' Y Y'. rewrite (upd_total _ _ _ _ _ _ X) by reflexivity. rewrite occA_cons. cbn [isRel]. replace (occA (isRel i) []) with 0 by reflexivity. replace (occA (isPending i) [ARel n]) with 0 by reflexivity. replace (occA (isPending i) []) with 0 by reflexivity.
      destruct (Nat.eqb_spec n i) as [->|NE].
      * rewrite (upd_same _ _ _ _ _ X) in Y'. injection Y' as <-. rewrite X in Y. injection Y as <-. cbn [n_refs n_ext n_lost n_live n_fin withRefs isZ]. repeat split; try lia. exact N5.
      * rewrite upd_other in Y' by exact NE. rewrite Y in Y'. injection Y' as <-. destruct (g_nodes s G i y Y) as (Q1 & Q2 & Q3 & Q4 & Q5 & _). cbn [isZ]. repeat split; try lia. exact Q5.
    + intros c k k' K K'. destruct (same_cores _ _ _ _ G K K') as (-> & C2). rewrite (upd_total _ _ _ _ _ _ X) by reflexivity. unfold keepers. cbn [t_stack t_list]. rewrite ST, TL. cbn. split; [lia|]. split; [exact C2|lia].
    + apply wf_flat. reflexivity.
    + intros b [<-|[]]. unfold known. apply Nat.ltb_lt. exact (nth_error_Some_bound _ _ _ _ X).
    + intros m [].
    + intros i y y' Y Y'. destruct (Nat.eqb_spec n i) as [->|NE].
      * rewrite (upd_same _ _ _ _ _ X) in Y'. injection Y' as <-. rewrite X in Y. injection Y as <-. cbn [n_free n_fin withRefs]. lia.
      * rewrite upd_other in Y' by exact NE. rewrite Y in Y'. injection Y' as <-. lia.
    + auto.
  - destruct (nth_error (s_cores s) c) as [k|] eqn:K; [|left; reflexivity].
    destruct (k_handle k) eqn:HK; cbn [andb]; [|left; reflexivity]. destruct (forallb (held true c (s_nodes s)) deps) eqn:HD; cbn [andb]; [|left; reflexivity].
    destruct (forallb (held true c (s_nodes s)) inst) eqn:HI; cbn [andb]; [|left; reflexivity]. destruct (forallb (fun p => occ (fst p) inst <=? n_ext (snd p)) (numbered 0 (s_nodes s))) eqn:HO; cbn [andb]; [|left; reflexivity].
    destruct (free || Nat.eqb (List.length inst) 0) eqn:HF; [|left; reflexivity]. right. eexists. split; [reflexivity|]. pose proof (create_good s c k deps inst free G K HK HD HI HO HF) as Q. rewrite HK in Q. exact Q.
  - destruct (forallb (fun p => occ (fst p) inst <=? n_ext (snd p)) (numbered 0 (s_nodes s))) eqn:HO; [|left; reflexivity]. right. eexists. split; [reflexivity|].
    apply (nodes_only s _ G) with (t := t) (th := th); [apply shape_mapi; auto| | | |exact T].
    + intros i y y' Y Y'. rewrite mapi_nth, Y in Y'. injection Y' as <-. destruct (g_nodes s G i y Y) as (Q1 & Q2 & Q3 & Q4 & Q5 & _). pose proof (occ_nonneg i inst). rewrite forallb_forall in HO. specialize (HO _ (numbered_in _ _ _ _ Y)). cbn [fst snd] in HO. apply Z.leb_le in HO. cbn [n_refs n_ext n_lost n_live n_fin withRefs]. repeat split; try lia. exact Q5.
    + intros i. apply total_mapi. reflexivity.
    + intros d. apply (total_mapi _ (fun m => isZ (n_live m && Nat.eqb (n_core m) d))). reflexivity.
  - destruct (nth_error (s_cores s) c) as [k|] eqn:K; [|left; reflexivity]. destruct (k_handle k) eqn:HK; [|left; reflexivity]. right. eexists. split; [reflexivity|].
    eapply (preserve_nodes s t th _ _ _ G T); cbn [t_stack t_list]; rewrite ?ST, ?TL, ?TD.
    + apply upd_length.
    + intros i. split; reflexivity.
    + intros d q q' Q Q'. unfold keepers. cbn [t_stack t_list]. rewrite ST, TL. rewrite occA_cons. cbn [keeps]. replace (occA (keeps (s_nodes s) d) []) with 0 by reflexivity. destruct (Nat.eqb_spec c d) as [<-|NE].
      * rewrite (upd_same _ _ _ _ _ K) in Q'. injection Q' as <-. rewrite K in Q. injection Q as <-. cbn [k_count k_handle k_deleted isZ]. rewrite HK. cbn [isZ]. destruct (g_cores s G c k K) as (_ & C2 & _). split; [lia|]. split; [exact C2|lia].
      * rewrite upd_other in Q' by exact NE. destruct (same_cores _ _ _ _ G Q Q') as (-> & C2). cbn [isZ]. split; [lia|]. split; [exact C2|lia].
    + left. cbn. split; [reflexivity|]. split; [reflexivity|]. right. eauto.
    + intros b [<-|[]]. exact (nth_error_Some_bound _ _ _ _ K).
    + intros m [].
    + reflexivity.
    + auto.
Qed.

(** ** Every run *)
Lemma start_good : forall cores threads, good (start cores threads).
Proof.
  intros cores threads. split; unfold start; cbn [s_nodes s_threads s_cores s_log].
  - intros [|i] x X; discriminate.
  - intros c k K. apply nth_error_In in K. apply repeat_spec in K. subst. unfold wfCore, kept. cbn [s_nodes s_threads s_log k_count k_handle k_deleted isZ]. split; [|split; reflexivity].
    rewrite (total_zero _ (keepers [] c)); [reflexivity|]. intros th I. apply repeat_spec in I. subst. reflexivity.
  - intros th I. apply repeat_spec in I. subst. apply wf_flat. reflexivity.
  - intros th a I A. apply repeat_spec in I. subst. destruct A.
  - intros th n I A. apply repeat_spec in I. subst. destruct A.
  - intros [|i] x X; discriminate.
  - intros n c [].
Qed.
Lemma act_good : forall s m, good s -> exists s', act1 true s m = Ok s' /\ good s'.
Proof.
  intros s m G. unfold act1. destruct m as [t|t o].
  - destruct (step_good s t G) as [->|(s' & -> & G')]; eauto.
  - destruct (user_good s t o G) as [->|(s' & -> & G')]; eauto.
Qed.
Lemma run_good : forall l s, good s -> exists s', run true s l = Ok s' /\ good s'.
Proof. induction l as [|m l IH]; intros s G; cbn; [eauto|]. destruct (act_good s m G) as (s' & -> & G'). cbn. exact (IH s' G'). Qed.
