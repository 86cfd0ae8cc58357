(** Sums, products, logarithms. *)
From Coq Require Import Lra Permutation.
From Verif Require Import Model.Float Spec.Prob.
Open Scope R_scope.

Lemma fold_left_Rplus l a : fold_left Rplus l a = a + Rsum l.
Proof.
  unfold Rsum. revert a; induction l as [|x l IH]; intros a; cbn [fold_left]; [lra|].
  rewrite IH. rewrite (IH (0 + x)). lra.
Qed.

Lemma Rsum_nil : Rsum [] = 0. Proof. reflexivity. Qed.
Lemma Rsum_cons x l : Rsum (x :: l) = x + Rsum l.
Proof. unfold Rsum at 1; cbn [fold_left]. rewrite fold_left_Rplus. lra. Qed.
Lemma Rsum_app l1 l2 : Rsum (l1 ++ l2) = Rsum l1 + Rsum l2.
Proof. induction l1 as [|x l1 IH]; cbn [app]; rewrite ?Rsum_nil, ?Rsum_cons; [lra|]. rewrite IH; lra. Qed.
Lemma Rsum_single x : Rsum [x] = x.
Proof. rewrite Rsum_cons, Rsum_nil; lra. Qed.

Lemma Rsum_map_ext {A} (f g : A -> R) l :
  (forall x, In x l -> f x = g x) -> Rsum (map f l) = Rsum (map g l).
Proof.
  intros H; induction l as [|x l IH]; [reflexivity|]. cbn [map]. rewrite !Rsum_cons.
  rewrite (H x) by (left; reflexivity). rewrite IH; [reflexivity|]. intros y Hy; apply H; right; exact Hy.
Qed.

Lemma Rsum_scal_l {A} (f : A -> R) c l : Rsum (map (fun x => c * f x) l) = c * Rsum (map f l).
Proof. induction l as [|x l IH]; cbn [map]; rewrite ?Rsum_nil, ?Rsum_cons; [lra|]. rewrite IH; lra. Qed.
Lemma Rsum_scal_r {A} (f : A -> R) c l : Rsum (map (fun x => f x * c) l) = Rsum (map f l) * c.
Proof. induction l as [|x l IH]; cbn [map]; rewrite ?Rsum_nil, ?Rsum_cons; [lra|]. rewrite IH; lra. Qed.
Lemma Rsum_plus {A} (f g : A -> R) l :
  Rsum (map (fun x => f x + g x) l) = Rsum (map f l) + Rsum (map g l).
Proof. induction l as [|x l IH]; cbn [map]; rewrite ?Rsum_nil, ?Rsum_cons; [lra|]. rewrite IH; lra. Qed.
Lemma Rsum_const {A} c (l : list A) : Rsum (map (fun _ => c) l) = INR (length l) * c.
Proof.
  induction l as [|x l IH]; cbn [map length]; rewrite ?Rsum_nil, ?Rsum_cons; [simpl; lra|].
  rewrite IH, S_INR; lra.
Qed.

Lemma Rsum_swap {A B} (f : A -> B -> R) la lb :
  Rsum (map (fun a => Rsum (map (f a) lb)) la) = Rsum (map (fun b => Rsum (map (fun a => f a b) la)) lb).
Proof.
  induction la as [|a la IH]; cbn [map].
  - rewrite Rsum_nil. induction lb as [|b lb IHb]; cbn [map]; rewrite ?Rsum_cons, ?Rsum_nil; [reflexivity|].
    rewrite <- IHb. lra.
  - rewrite Rsum_cons, IH. rewrite <- Rsum_plus. apply Rsum_map_ext; intros b _. rewrite Rsum_cons; reflexivity.
Qed.

Lemma Rsum_nonneg l : (forall x, In x l -> 0 <= x) -> 0 <= Rsum l.
Proof.
  intros H; induction l as [|x l IH]; [rewrite Rsum_nil; lra|]. rewrite Rsum_cons.
  assert (0 <= x) by (apply H; left; reflexivity).
  assert (0 <= Rsum l) by (apply IH; intros y Hy; apply H; right; exact Hy). lra.
Qed.

Lemma Rsum_pos l : l <> [] -> (forall x, In x l -> 0 < x) -> 0 < Rsum l.
Proof.
  intros Hne H; destruct l as [|x l]; [congruence|]. rewrite Rsum_cons.
  assert (0 < x) by (apply H; left; reflexivity).
  assert (0 <= Rsum l) by (apply Rsum_nonneg; intros y Hy; left; apply H; right; exact Hy). lra.
Qed.

Lemma Rsum_ge_elem l x : (forall y, In y l -> 0 <= y) -> In x l -> x <= Rsum l.
Proof.
  intros H Hx; induction l as [|y l IH]; [destruct Hx|]. rewrite Rsum_cons.
  assert (0 <= y) by (apply H; left; reflexivity).
  assert (Hl: forall z, In z l -> 0 <= z) by (intros z Hz; apply H; right; exact Hz).
  destruct Hx as [->|Hx].
  - pose proof (Rsum_nonneg l Hl). lra.
  - specialize (IH Hl Hx). lra.
Qed.

Lemma Rsum_le {A} (f g : A -> R) l :
  (forall x, In x l -> f x <= g x) -> Rsum (map f l) <= Rsum (map g l).
Proof.
  intros H; induction l as [|x l IH]; cbn [map]; rewrite ?Rsum_nil, ?Rsum_cons; [lra|].
  assert (f x <= g x) by (apply H; left; reflexivity).
  assert (Rsum (map f l) <= Rsum (map g l)) by (apply IH; intros y Hy; apply H; right; exact Hy). lra.
Qed.

Lemma Rsum_perm l l' : Permutation l l' -> Rsum l = Rsum l'.
Proof. induction 1; rewrite ?Rsum_cons in *; lra. Qed.

Lemma Rsum_flat_map {A B} (f : B -> R) (g : A -> list B) l :
  Rsum (map f (flat_map g l)) = Rsum (map (fun a => Rsum (map f (g a))) l).
Proof.
  induction l as [|a l IH]; cbn [flat_map map]; [reflexivity|].
  rewrite map_app, Rsum_app, Rsum_cons, IH. reflexivity.
Qed.

(** Products *)
Lemma Rprod_nil : Rprod [] = 1. Proof. reflexivity. Qed.
Lemma Rprod_cons x l : Rprod (x :: l) = x * Rprod l. Proof. reflexivity. Qed.
Lemma Rprod_app l1 l2 : Rprod (l1 ++ l2) = Rprod l1 * Rprod l2.
Proof. induction l1 as [|x l1 IH]; cbn [app]; rewrite ?Rprod_nil, ?Rprod_cons; [lra|]. rewrite IH; lra. Qed.
Lemma Rprod_pos l : (forall x, In x l -> 0 < x) -> 0 < Rprod l.
Proof.
  intros H; induction l as [|x l IH]; rewrite ?Rprod_nil, ?Rprod_cons; [lra|]. apply Rmult_lt_0_compat.
  - apply H; left; reflexivity.
  - apply IH; intros y Hy; apply H; right; exact Hy.
Qed.
Lemma Rprod_perm l l' : Permutation l l' -> Rprod l = Rprod l'.
Proof.
  induction 1 as [|x l l' HP IH|x y l|l1 l2 l3 H1 IH1 H2 IH2]; rewrite ?Rprod_cons; [reflexivity|rewrite IH; reflexivity|lra|congruence].
Qed.
Lemma Rprod_map_ext {A} (f g : A -> R) l :
  (forall x, In x l -> f x = g x) -> Rprod (map f l) = Rprod (map g l).
Proof.
  intros H; induction l as [|x l IH]; [reflexivity|]. cbn [map]. rewrite !Rprod_cons.
  rewrite (H x) by (left; reflexivity). rewrite IH; [reflexivity|]. intros y Hy; apply H; right; exact Hy.
Qed.
Lemma Rprod_map_mult {A} (f g : A -> R) l :
  Rprod (map (fun x => f x * g x) l) = Rprod (map f l) * Rprod (map g l).
Proof. induction l as [|x l IH]; cbn [map]; rewrite ?Rprod_nil, ?Rprod_cons; [lra|]. rewrite IH; lra. Qed.

(** exp / ln *)
Lemma exp_ln_inv x : 0 < x -> exp (ln x) = x. Proof. apply exp_ln. Qed.

Lemma exp_log_0_5 : exp log_0_5 = / 2.
Proof. unfold log_0_5. apply exp_ln. lra. Qed.

Lemma exp_minus a b : exp (a - b) = exp a / exp b.
Proof. unfold Rminus, Rdiv. rewrite exp_plus, exp_Ropp. reflexivity. Qed.

Lemma exp_inj a b : exp a = exp b -> a = b. Proof. apply exp_inv. Qed.

Lemma logsumexp2_exp a b : exp (logsumexp2 a b) = exp a + exp b.
Proof.
  unfold logsumexp2. pose proof (exp_pos a). pose proof (exp_pos b).
  destruct (Rlt_dec a b).
  - pose proof (exp_pos (a - b)). rewrite exp_plus, exp_ln by lra. rewrite exp_minus. field. lra.
  - pose proof (exp_pos (b - a)). rewrite exp_plus, exp_ln by lra. rewrite exp_minus. field. lra.
Qed.

Lemma logsumexp2_spec a b : logsumexp2 a b = ln (exp a + exp b).
Proof. rewrite <- logsumexp2_exp, ln_exp. reflexivity. Qed.

Lemma mix_exp a b : exp (log_0_5 + logsumexp2 a b) = / 2 * exp a + / 2 * exp b.
Proof. rewrite exp_plus, exp_log_0_5, logsumexp2_exp. lra. Qed.

Lemma py_max_ok l : l <> [] -> exists m, py_max l = Ok m /\ In m l /\ forall x, In x l -> x <= m.
Proof.
  destruct l as [|x l]; [congruence|]. intros _. unfold py_max. eexists; split; [reflexivity|].
  revert x; induction l as [|y l IH]; intros x; cbn [fold_left].
  - split; [left; reflexivity|]. intros z [->|[]]; lra.
  - destruct (Rlt_dec x y) as [H|H].
    + destruct (IH y) as [H1 H2]. split.
      * right; exact H1.
      * intros z [<-|Hz]; [|apply H2; exact Hz].
        specialize (H2 y (or_introl eq_refl)). lra.
    + destruct (IH x) as [H1 H2]. split.
      * destruct H1 as [H1|H1]; [left; exact H1|right; right; exact H1].
      * intros z [<-|[<-|Hz]].
        -- apply H2; left; reflexivity.
        -- specialize (H2 x (or_introl eq_refl)). lra.
        -- apply H2; right; exact Hz.
Qed.

Lemma py_log_ok x : 0 < x -> py_log x = Ok (ln x).
Proof. intros H; unfold py_log. destruct (Rlt_dec 0 x); [reflexivity|contradiction]. Qed.

Lemma py_div_ok x y : y <> 0 -> py_div x y = Ok (x / y).
Proof. intros H; unfold py_div. destruct (Req_EM_T y 0); [contradiction|reflexivity]. Qed.

Lemma logsumexp_ok l : l <> [] -> logsumexp l = Ok (ln (Rsum (map exp l))).
Proof.
  intros Hne. unfold logsumexp. destruct (py_max_ok l Hne) as (m & -> & Hin & Hmax). cbn [bind].
  assert (Hpos: 0 < Rsum (map (fun v => exp (v - m)) l)).
  { apply Rsum_pos. { destruct l; [congruence|discriminate]. }
    intros x Hx. apply in_map_iff in Hx as (y & <- & _). apply exp_pos. }
  rewrite py_log_ok by exact Hpos. cbn [bind]. f_equal.
  rewrite <- (ln_exp m) at 1. rewrite <- ln_mult; [|apply exp_pos|exact Hpos].
  f_equal. rewrite <- Rsum_scal_l. apply Rsum_map_ext. intros v _.
  rewrite <- exp_plus. f_equal. lra.
Qed.

Lemma exp_sum_pos l : l <> [] -> 0 < Rsum (map exp l).
Proof.
  intros H. apply Rsum_pos. { destruct l; [congruence|discriminate]. }
  intros x Hx; apply in_map_iff in Hx as (y & <- & _); apply exp_pos.
Qed.
