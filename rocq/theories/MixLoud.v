(** How loud the mix is. *)
From Coq Require Import ZArith List Bool Lia QArith Qabs Qpower Lqa.
From Coq Require Import SpecFloat.
From Verif Require Import Common PlaneMem Soft SoftNum SoftErr SoftAdd SoftVal ConvertSpec Convert ConvertLemmas ConvertFacts ConvertRound MixSpec Mix MixLemmas MixBuild.
Import ListNotations.
Open Scope Z_scope.

Lemma div_val : forall m1 e1 m2 e2, Zdigits2 (Z.pos m1) = 53 -> Zdigits2 (Z.pos m2) = 53 -> -100 <= e1 <= 100 -> -100 <= e2 <= 100 ->
  exists q e', div64 (S754_finite false m1 e1) (S754_finite false m2 e2) = S754_finite false q e' /\ Zdigits2 (Z.pos q) = 53 /\ e1 - e2 - 53 <= e' <= e1 - e2 - 51 /\
    Z.abs (Z.pos q * 2 ^ (e' + sc) * (Z.pos m2 * 2 ^ (e2 + sc)) - Z.pos m1 * 2 ^ (e1 + sc) * 2 ^ sc) * 2 ^ 53 <= Z.pos m1 * 2 ^ (e1 + sc) * 2 ^ sc.
Proof.
  intros m1 e1 m2 e2 D1 D2 E1 E2. assert (SC : sc = 1074) by reflexivity. destruct (div_rel 53 1024 ltac:(lia) false m1 e1 false m2 e2 D1 D2) as (q & e' & R & DQ & EE & N1 & N2); [unfold SpecFloat.emin; lia|lia|].
  exists q, e'. split; [exact R|]. split; [exact DQ|]. split; [lia|]. clear R. pose proof (tw_pos sc) as TP. pose proof (mg_scaled m1 e1 ltac:(lia)) as S1. pose proof (mg_scaled m2 e2 ltac:(lia)) as S2. pose proof (mg_scaled q e' ltac:(lia)) as S3. pose proof (mg_pos m2 e2) as P2.
  assert (TS : (tw sc == inject_Z (2 ^ sc))%Q) by (apply tw_Z; lia).
  set (a := mg m1 e1) in *. set (b := mg m2 e2) in *. set (x := mg q e') in *. set (t := tw sc) in *. clearbody a b x t.
  set (A := Z.pos m1 * 2 ^ (e1 + sc)) in *. set (B := Z.pos m2 * 2 ^ (e2 + sc)) in *. set (X := Z.pos q * 2 ^ (e' + sc)) in *. set (T := 2 ^ sc) in *. clearbody A B X T.
  assert (BP : (0 < b * t * t)%Q) by (apply Qmult_lt_0_compat; [apply Qmult_lt_0_compat; assumption|assumption]).
  assert (L1 : (ulo 53 * (A * T # 1) <= (X * B # 1))%Q).
  { apply Qle_trans with ((ulo 53 * (a / b)) * (b * t * t))%Q; [|apply Qle_trans with (x * (b * t * t))%Q; [apply Qmult_le_compat_r; [exact N1|apply Qlt_le_weak, BP]|]].
    - apply Qle_lteq; right. setoid_replace (A * T # 1)%Q with (inject_Z A * inject_Z T)%Q by (rewrite <- inject_Z_mult; reflexivity). rewrite <- S1, <- TS. field. intros Q. rewrite Q in P2. apply Qlt_irrefl in P2. exact P2.
    - apply Qle_lteq; right. setoid_replace (X * B # 1)%Q with (inject_Z X * inject_Z B)%Q by (rewrite <- inject_Z_mult; reflexivity). rewrite <- S2, <- S3. ring. }
  assert (L2 : ((X * B # 1) <= uhi 53 * (A * T # 1))%Q).
  { apply Qle_trans with (x * (b * t * t))%Q; [|apply Qle_trans with ((uhi 53 * (a / b)) * (b * t * t))%Q; [apply Qmult_le_compat_r; [exact N2|apply Qlt_le_weak, BP]|]].
    - apply Qle_lteq; right. setoid_replace (X * B # 1)%Q with (inject_Z X * inject_Z B)%Q by (rewrite <- inject_Z_mult; reflexivity). rewrite <- S2, <- S3. ring.
    - apply Qle_lteq; right. setoid_replace (A * T # 1)%Q with (inject_Z A * inject_Z T)%Q by (rewrite <- inject_Z_mult; reflexivity). rewrite <- S1, <- TS. field. intros Q. rewrite Q in P2. apply Qlt_irrefl in P2. exact P2. }
  assert (U1 : (ulo 53 == 9007199254740991 # 9007199254740992)%Q) by (vm_compute; reflexivity). assert (U2 : (uhi 53 == 9007199254740993 # 9007199254740992)%Q) by (vm_compute; reflexivity). rewrite U1 in L1. rewrite U2 in L2.
  unfold Qle, Qmult in L1, L2. cbn [Qnum Qden] in L1, L2. change (2 ^ 53) with 9007199254740992. lia.
Qed.

Lemma pow1 : 2 ^ sc = 2 * 2 ^ (sc - 1).
Proof. assert (SC : sc = 1074) by reflexivity. rewrite <- Z.pow_succ_r by lia. f_equal. Qed.
Lemma half_pos : 0 < 2 ^ (sc - 1).
Proof. apply pow_pos. discriminate. Qed.
Lemma number_val : forall l, norm (number l) /\ (l = None /\ number l = S754_zero false \/ exists m e, number l = S754_finite false m e /\ -53 <= e <= -52 /\ 2 ^ (sc - 1) <= V (number l) <= 2 ^ sc).
Proof.
  intros l. assert (SC : sc = 1074) by reflexivity. pose proof pow1 as P1. pose proof half_pos as HP.
  assert (G : forall m e, number l = S754_finite false m e -> Zdigits2 (Z.pos m) = 53 -> (e = -52 /\ Z.pos m = 2 ^ 52 \/ e = -53) -> norm (number l) /\ (l = None /\ number l = S754_zero false \/ exists m e, number l = S754_finite false m e /\ -53 <= e <= -52 /\ 2 ^ (sc - 1) <= V (number l) <= 2 ^ sc)).
  { intros m e E D C. rewrite E. split; [cbn [norm]; lia|]. right. exists m, e. split; [reflexivity|]. split; [lia|]. cbn [V signed]. pose proof (digits53 m D) as MB. destruct C as [(-> & ->)| ->].
    - rewrite <- Z.pow_add_r by lia. replace (52 + (-52 + sc)) with sc by lia. lia.
    - assert (Q1 : 2 ^ (sc - 1) = 2 ^ 52 * 2 ^ (-53 + sc)) by (rewrite <- Z.pow_add_r by lia; f_equal; lia). assert (Q2 : 2 ^ sc = 2 ^ 53 * 2 ^ (-53 + sc)) by (rewrite <- Z.pow_add_r by lia; f_equal; lia). rewrite Q1, Q2. pose proof (pow_pos (-53 + sc) ltac:(lia)) as PP. set (P := 2 ^ (-53 + sc)) in *. clearbody P. clear - MB PP. nia. }
  destruct l as [[]|].
  - apply (G (2 ^ 52)%positive (-52)); [reflexivity|reflexivity|left; split; reflexivity].
  - apply (G 6369051672525773%positive (-53)); [reflexivity|reflexivity|right; reflexivity].
  - apply (G 4503599627370497%positive (-53)); [vm_compute; reflexivity|reflexivity|right; reflexivity].
  - split; [exact I|]. left. split; reflexivity.
Qed.
Definition sumV (l : list (option lev)) : Z := fold_right (fun x a => V (number x) + a) 0 l.
Definition sumOk (s : fl) (n T : Z) : Prop := norm s /\ Z.abs (V s - T) * 2 ^ 52 <= n * T /\ 0 <= T <= n * 2 ^ sc /\ (T = 0 \/ 2 ^ (sc - 1) <= T).
Lemma sumOk_within : forall s n T, 0 <= n <= 64 -> sumOk s n T -> within (-2) 8 s /\ 0 <= V s <= 128 * 2 ^ sc.
Proof.
  intros s n T N (NS & C & R & Z0). assert (SC : sc = 1074) by reflexivity. pose proof pow1 as P1. pose proof half_pos as HP. set (h := 2 ^ (sc - 1)) in *.
  assert (NT : n * T <= 64 * T) by nia. assert (B : Z.abs (V s - T) * 2 ^ 46 <= T) by (change (2 ^ 52) with (64 * 2 ^ 46) in C; lia). assert (TB : T <= 64 * 2 ^ sc) by nia.
  change (2 ^ 46) with 70368744177664 in B. split; [|lia]. destruct Z0 as [->|Z0].
  - assert (V s = 0) by lia. destruct s as [t|t| |t m e]; try exact I. exfalso. destruct NS as (D & EE). cbn [V] in H. pose proof (V_sign m e ltac:(lia)). destruct t; cbn [signed] in H; rewrite ?Z.mul_opp_l in H; lia.
  - change 8 with (7 + 1). apply within_V; [exact NS|lia|lia|]. assert (H2 : h = 2 * 2 ^ (-2 + sc)) by (unfold h; rewrite <- Z.pow_succ_r by lia; f_equal; lia). assert (H3 : 2 ^ (7 + sc) = 128 * 2 ^ sc) by (rewrite Z.pow_add_r by lia; reflexivity). rewrite H3. lia.
Qed.
Lemma sum_step : forall s n T x, 0 <= n < 64 -> sumOk s n T -> sumOk (add64 s (number x)) (n + 1) (T + V (number x)).
Proof.
  intros s n T x N H. destruct (sumOk_within s n T ltac:(lia) H) as (W & _). destruct H as (NS & C & R & Z0). pose proof pow1 as P1. pose proof half_pos as HP. destruct (number_val x) as (NX & VX).
  assert (WX : within (-2) 8 (number x)) by (destruct VX as [(_ & ->)|(m & e & -> & E & _)]; cbn [within]; [exact I|lia]). assert (VB : 0 <= V (number x) <= 2 ^ sc /\ (V (number x) = 0 \/ 2 ^ (sc - 1) <= V (number x))). { destruct VX as [(_ & E)|(m & e & _ & _ & B)]; [rewrite E; cbn [V]; lia|lia]. }
  destruct (add_val s (number x) (-2) 8 NS NX W WX ltac:(lia) ltac:(lia)) as (NR & CL & _ & _). split; [exact NR|]. unfold close in CL. set (r := V (add64 s (number x))) in *. set (w := V (number x)) in *. set (v := V s) in *. set (u := 2 ^ sc) in *. set (h := 2 ^ (sc - 1)) in *. clearbody r w v u h. clear - N C R Z0 VB CL P1 HP.
  split; [|split; [split; [lia|nia]|lia]]. change (2 ^ 53) with (2 * 2 ^ 52) in CL. assert (NT : n * T <= 64 * T) by nia. assert (B : Z.abs (v - T) <= T) by (change (2 ^ 52) with (64 * 2 ^ 46) in C; lia). nia.
Qed.
Lemma row_sum : forall l, Z.of_nat (length l) <= 64 -> sumOk (rowSum (map number l)) (Z.of_nat (length l)) (sumV l).
Proof.
  assert (G : forall l s n T, 0 <= n -> n + Z.of_nat (length l) <= 64 -> sumOk s n T -> sumOk (fold_left add64 (map number l) s) (n + Z.of_nat (length l)) (T + sumV l)).
  { induction l as [|x l IH]; intros s n T N L H; cbn [map fold_left length sumV fold_right].
    - rewrite !Z.add_0_r. exact H.
    - rewrite Nat2Z.inj_succ in *. cbn [length] in L. rewrite Nat2Z.inj_succ in L. replace (n + Z.succ (Z.of_nat (length l))) with (n + 1 + Z.of_nat (length l)) by lia. rewrite Z.add_assoc. apply IH; [lia|lia|]. apply sum_step; [lia|exact H]. }
  intros l L. apply (G l (S754_zero false) 0 0); [lia|lia|]. split; [exact I|]. cbn [V]. split; [lia|]. split; [lia|left; reflexivity].
Qed.
