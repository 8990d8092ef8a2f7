(** The real numbers are an arithmetic without rounding. *)
From Coq Require Import ZArith List Bool Reals Lra.
From Verif Require Import RwSyntax RwSpec.
Open Scope R_scope.

Definition orz (o : option R) : R := match o with Some v => v | None => 0 end.
Definition realA : arith := {|
  K := R; kdec := Req_EM_T;
  keq := fun a b => if Req_EM_T a b then true else false; klt := fun a b => if Rlt_dec a b then true else false;
  kint := IZR; khalf := / 2; kadd := Rplus; ksub := Rminus; kmul := Rmult; kdiv := Rdiv; kneg := Ropp; kabs := Rabs;
  kpow := fun a b => orz (rpow false a b); kfun := fun u a => orz (usem u a);
  kisint := fun a => if Req_EM_T a (IZR (Int_part a)) then true else false; ktoint := Int_part; kfinite := fun _ => true |}.
Lemma int_part_IZR : forall z, Int_part (IZR z) = z.
Proof. intros z. unfold Int_part. rewrite <- (tech_up (IZR z) (z + 1)); [ring | rewrite plus_IZR; lra | rewrite plus_IZR; lra]. Qed.
Theorem real_exact : exact realA (fun x => x).
Proof.
  constructor; cbn; try reflexivity.
  - intros a b. destruct (Req_EM_T a b); split; auto; discriminate.
  - intros a b. destruct (Rlt_dec a b); split; auto; discriminate || contradiction.
  - intros a b v ->. reflexivity.
  - intros u a v ->. reflexivity.
  - intros a. destruct (Req_EM_T a (IZR (Int_part a))) as [Q | N]; split; intros H; try discriminate; eauto. destruct H as [z H]. exfalso. apply N.
    rewrite H, int_part_IZR. reflexivity.
  - intros a z ->. apply int_part_IZR.
Qed.
