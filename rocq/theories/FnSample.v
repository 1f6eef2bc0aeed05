(** Sample expressions, used only in examples: symbols, exact numbers, numbers in decimal notation, sums and products. *)
From Coq Require Import String List Bool Arith ZArith Reals Lra Lia.
From Verif Require Import Base Num FnModel FnSpec FnFacts.
Import ListNotations.
Local Open Scope list_scope.

Inductive sx (V : Type) : Type := SSym (s : symbol) | SNum (v : V) | SFloat (v : V) | SAdd (a b : sx V) | SMul (a b : sx V).
Arguments SSym {V} s. Arguments SNum {V} v. Arguments SFloat {V} v. Arguments SAdd {V} a b. Arguments SMul {V} a b.

Section Sx.
Variable V : Type.
Variable add mul : V -> V -> V.
Fixpoint sx_eval (e : sx V) (env : symbol -> V) : V :=
  match e with SSym s => env s | SNum v => v | SFloat v => v | SAdd a b => add (sx_eval a env) (sx_eval b env) | SMul a b => mul (sx_eval a env) (sx_eval b env) end.
Fixpoint sx_free (e : sx V) : list symbol := match e with SSym s => [s] | SNum _ => [] | SFloat _ => [] | SAdd a b => sx_free a ++ sx_free b | SMul a b => sx_free a ++ sx_free b end.
Fixpoint sx_subs (e : sx V) (s t : symbol) : sx V :=
  match e with SSym u => SSym (if symbol_eqb u s then t else u) | SNum v => SNum v | SFloat v => SFloat v | SAdd a b => SAdd (sx_subs a s t) (sx_subs b s t) | SMul a b => SMul (sx_subs a s t) (sx_subs b s t) end.
Lemma sx_laws : sympy_laws V (sx V) sx_free sx_subs (fun e => e) sx_eval.
Proof using.
  split.
  - induction e as [s|v|v|a IHa b IHb|a IHa b IHb]; intros env env' H; cbn [sx_eval]; [apply H; left; reflexivity|reflexivity|reflexivity| |];
      cbn [sx_free] in H; rewrite (IHa env env'), (IHb env env'); try reflexivity; intros u Hu; apply H, in_or_app; auto.
  - intros e s t env. induction e as [u|v|v|a IHa b IHb|a IHa b IHb]; cbn [sx_eval sx_subs]; [destruct (symbol_eqb u s); reflexivity|reflexivity|reflexivity| |]; rewrite IHa, IHb; reflexivity.
  - intros e s t u. induction e as [w|v|v|a IHa b IHb|a IHa b IHb]; cbn [sx_free sx_subs].
    + intros [H|[]]. destruct (symbol_eqb w s) eqn:Ew; [apply symbol_eqb_iff in Ew; right; split; [symmetry; exact H|left; exact Ew]|]. left. subst w. split; [left; reflexivity|]. intros ->. rewrite symbol_eqb_refl in Ew. discriminate.
    + intros [].
    + intros [].
    + intros H. apply in_app_or in H as [H|H]; [destruct (IHa H) as [[G1 G2]|[G1 G2]]|destruct (IHb H) as [[G1 G2]|[G1 G2]]]; [left|right|left|right]; split; try assumption; apply in_or_app; auto.
    + intros H. apply in_app_or in H as [H|H]; [destruct (IHa H) as [[G1 G2]|[G1 G2]]|destruct (IHb H) as [[G1 G2]|[G1 G2]]]; [left|right|left|right]; split; try assumption; apply in_or_app; auto.
  - reflexivity.
  - intros e s H. exact H.
Qed.
Fixpoint sx_terms (e : sx V) : list (sx V) := match e with SAdd a b => sx_terms a ++ sx_terms b | _ => [e] end.
Fixpoint sx_factors (e : sx V) : list (sx V) := match e with SMul a b => sx_factors a ++ sx_factors b | _ => [e] end.
Definition sx_float (e : sx V) : option V := match e with SFloat v => Some v | _ => None end.
End Sx.
Arguments sx_free {V} e. Arguments sx_subs {V} e s t. Arguments sx_terms {V} e. Arguments sx_factors {V} e. Arguments sx_float {V} e.

Lemma sx_parts : forall env, parts_laws (sx R) sx_float SNum SAdd SMul (fun e => e) sx_terms sx_factors (fun e => sx_eval R Rplus Rmult e env).
Proof.
  assert (A : forall l k, sum_of (l ++ k) = (sum_of l + sum_of k)%R) by (induction l as [|x l IH]; intros k; cbn [app sum_of fold_right]; [unfold sum_of; ring|]; fold (sum_of (l ++ k)); rewrite IH; unfold sum_of; ring).
  assert (M : forall l k, product_of (l ++ k) = (product_of l * product_of k)%R) by (induction l as [|x l IH]; intros k; cbn [app product_of fold_right]; [unfold product_of; ring|]; fold (product_of (l ++ k)); rewrite IH; unfold product_of; ring).
  intros env. split; try reflexivity.
  - intros [s|v|v|a b|a b] x H; try discriminate H. injection H as ->. reflexivity.
  - induction e as [s|v|v|a IHa b IHb|a IHa b IHb]; cbn [sx_terms]; try (unfold sum_of; cbn [map fold_right]; ring). rewrite map_app, A, <- IHa, <- IHb. reflexivity.
  - induction e as [s|v|v|a IHa b IHb|a IHa b IHb]; cbn [sx_factors]; try (unfold product_of; cbn [map fold_right]; ring). rewrite map_app, M, <- IHa, <- IHb. reflexivity.
Qed.

(** The closest fraction with a denominator of at most D exists: the best of the best numerators. *)
Definition numerator (x : R) (q : Z) : Z := up (x * IZR q - / 2)%R.
Lemma numerator_best : forall x q p, (1 <= q)%Z -> (Rabs (x - IZR (numerator x q) / IZR q) <= Rabs (x - IZR p / IZR q))%R.
Proof.
  intros x q p Hq. assert (Q : (0 < IZR q)%R) by (apply IZR_lt; lia). destruct (archimed (x * IZR q - / 2)%R) as [A1 A2]. fold (numerator x q) in A1, A2. set (n := numerator x q) in *.
  assert (G : forall k, (Rabs (x - IZR k / IZR q) = Rabs (x * IZR q - IZR k) * / IZR q)%R).
  { intros k. replace (x - IZR k / IZR q)%R with ((x * IZR q - IZR k) * / IZR q)%R by (field; lra). rewrite Rabs_mult, (Rabs_pos_eq (/ IZR q)) by (left; apply Rinv_0_lt_compat; exact Q). reflexivity. }
  rewrite !G. apply Rmult_le_compat_r; [left; apply Rinv_0_lt_compat; exact Q|]. destruct (Z.eq_dec p n) as [->|Hn]; [apply Rle_refl|]. apply Rle_trans with (/ 2)%R; [apply Rabs_le; lra|].
  assert (H : (p <= n - 1)%Z \/ (n + 1 <= p)%Z) by lia. destruct H as [H|H]; apply IZR_le in H; rewrite ?minus_IZR, ?plus_IZR in H.
  - rewrite Rabs_pos_eq; lra.
  - rewrite Rabs_minus_sym, Rabs_pos_eq; lra.
Qed.
Fixpoint best (x : R) (n : nat) : R :=
  match n with
  | O => IZR (numerator x 1)
  | S n' => let r := best x n' in let q := (Z.of_nat n' + 2)%Z in if Rlt_dec (Rabs (x - IZR (numerator x q) / IZR q)) (Rabs (x - r)) then (IZR (numerator x q) / IZR q)%R else r
  end.
Lemma best_closest : forall x n, closest (Z.of_nat n + 1) x (best x n).
Proof.
  intros x. induction n as [|n [IH1 IH2]].
  - split; [exists (numerator x 1), 1%Z; split; [cbn; lia|cbn [best]; field]|]. intros p q Hq. assert (q = 1%Z) by lia. subst q. cbn [best]. pose proof (numerator_best x 1 p ltac:(lia)) as H. replace (IZR (numerator x 1) / 1)%R with (IZR (numerator x 1)) in H by field. exact H.
  - cbn [best]. cbv zeta. set (q0 := (Z.of_nat n + 2)%Z). replace (Z.of_nat (S n) + 1)%Z with q0 by (unfold q0; lia). destruct (Rlt_dec _ _) as [Hlt|Hge].
    + split; [exists (numerator x q0), q0; split; [unfold q0; lia|reflexivity]|]. intros p q Hq. destruct (Z.eq_dec q q0) as [->|Hq0]; [apply numerator_best; unfold q0; lia|]. specialize (IH2 p q ltac:(unfold q0 in *; lia)). lra.
    + split; [destruct IH1 as (p & q & Hq & E); exists p, q; split; [unfold q0; lia|exact E]|]. intros p q Hq. destruct (Z.eq_dec q q0) as [->|Hq0]; [pose proof (numerator_best x q0 p ltac:(unfold q0; lia)); lra|]. apply IH2. unfold q0 in *. lia.
Qed.
Definition sample_limit (D : Z) (x : R) : R := best x (Z.to_nat (D - 1)).
Lemma sample_closest : forall D x, (1 <= D)%Z -> closest D x (sample_limit D x).
Proof. intros D x H. unfold sample_limit. pose proof (best_closest x (Z.to_nat (D - 1))) as B. rewrite Z2Nat.id in B by lia. replace (D - 1 + 1)%Z with D in B by lia. exact B. Qed.
Definition sample_tiny (x : R) : bool := if Rlt_dec (Rabs x) threshold then true else false.
Lemma sample_tiny_iff : forall x, sample_tiny x = true <-> (Rabs x < threshold)%R.
Proof. intros x. unfold sample_tiny. destruct (Rlt_dec _ _); split; intros; [assumption|reflexivity|discriminate|contradiction]. Qed.
