(** Lemmas on the subscripts of series and variational forms. *)
From Coq Require Import String List Bool Arith ZArith Lia.
From Verif Require Import Base IndexModel Spec Num LinModel LinSpec LinBase Facts2 PyBase PosModel PosSpec SeriesModel SeriesSpec GetModel GetSpec.
Import ListNotations.

Lemma index_named : forall A (L : list A) i m, named L i m -> exists k, nth_error L k = Some m /\ np_index (length L) i = Ok k.
Proof.
  intros A L i m (k & H & Hi). assert (Lk : k < length L) by (apply nth_error_Some; congruence). exists k. split; [exact H|]. unfold np_index.
  destruct (Z.leb_spec 0 i), (Z.ltb_spec i (Z.of_nat (length L))), (Z.leb_spec (- Z.of_nat (length L)) i), (Z.ltb_spec i 0); cbn [andb]; try lia; f_equal; lia.
Qed.
Lemma index_other : forall A (L : list A) i, (forall m, ~ named L i m) -> np_index (length L) i = Throw "IndexError"%string.
Proof.
  intros A L i H. assert (G : forall k, k < length L -> i <> Z.of_nat k /\ i <> (Z.of_nat k - Z.of_nat (length L))%Z).
  { intros k Hk. destruct (nth_error L k) as [m|] eqn:E; [|apply nth_error_None in E; lia]. split; intros C; apply (H m); exists k; auto. }
  unfold np_index. destruct (Z.leb_spec 0 i), (Z.ltb_spec i (Z.of_nat (length L))), (Z.leb_spec (- Z.of_nat (length L)) i), (Z.ltb_spec i 0); cbn [andb]; try reflexivity; exfalso; try lia;
    first [specialize (G (Z.to_nat i)); lia | specialize (G (Z.to_nat (i + Z.of_nat (length L)))); lia].
Qed.

Section Get.
Variable N : num.
Variable E : Type.
Lemma value_get : forall A (d : A) l v k m, NoDup l -> nth_error l k = Some m -> length v = length l -> nth_error v k = Some (value d l v m).
Proof.
  intros A d l v k m ND H L. rewrite (value_nth A d l v k m ND H L). apply nth_error_nth'. rewrite L. apply nth_error_Some. congruence.
Qed.

Lemma series_subscript : forall (f : series N E) dim i, series_ok f dim -> let L := points (s_set f) dim (s_degree f) in
  (forall m, named L i m -> series_get N E f i = Ok (series_at f m)) /\ ((forall m, ~ named L i m) -> series_get N E f i = Throw "IndexError"%string).
Proof.
  intros f dim i ((D & _ & U) & V) L. pose proof (points_NoDup _ _ _ U) as ND. unfold vec_for in V. unfold series_get. rewrite V. fold L. split.
  - intros m H. destruct (index_named _ L i m H) as (k & Hk & ->). cbn [bind]. unfold py_get. rewrite (value_get N n0 L (s_coeffs f) k m ND Hk V). unfold series_at, coef. rewrite D. reflexivity.
  - intros H. rewrite (index_other _ L i H). reflexivity.
Qed.

Lemma varf_subscript : forall (v : varf N E) dim i, varf_ok v dim -> let L := points (v_set v) dim (v_degree v) in
  (forall r, named L i r -> exists row, varf_get_row N E v i = Ok row /\ length row = length L /\ (forall k c, nth_error L k = Some c -> nth_error row k = Some (varf_at v r c)) /\
    forall j, (forall c, named L j c -> varf_get N E v i j = Ok (varf_at v r c)) /\ ((forall c, ~ named L j c) -> varf_get N E v i j = Throw "IndexError"%string)) /\
  ((forall r, ~ named L i r) -> varf_get_row N E v i = Throw "IndexError"%string /\ forall j, varf_get N E v i j = Throw "IndexError"%string).
Proof.
  intros v dim i ((D & _ & U) & (V & W)) L. pose proof (points_NoDup _ _ _ U) as ND. unfold varf_get_row, varf_get. rewrite V. fold L. split.
  - intros r H. destruct (index_named _ L i r H) as (k & Hk & ->). cbn [bind]. unfold py_get at 1. rewrite (value_get _ [] L (v_mat v) k r ND Hk V). set (row := value [] L (v_mat v) r).
    assert (LR : length row = length L).
    { rewrite Forall_forall in W. apply W. eapply nth_error_In. exact (value_get _ [] L (v_mat v) k r ND Hk V). }
    assert (AT : forall c, varf_at v r c = value n0 L row c) by (intros c; unfold varf_at, entry, mvalue; rewrite D; reflexivity).
    exists row. split; [reflexivity|]. split; [exact LR|]. split; [intros k' c Hc; rewrite AT; exact (value_get N n0 L row k' c ND Hc LR)|]. intros j. split.
    + intros c Hc. destruct (index_named _ L j c Hc) as (l & Hl & ->). cbn [bind]. unfold py_get. rewrite (value_get _ [] L (v_mat v) k r ND Hk V). cbn [bind]. fold row. rewrite (value_get N n0 L row l c ND Hl LR), AT. reflexivity.
    + intros Hc. rewrite (index_other _ L j Hc). reflexivity.
  - intros H. rewrite (index_other _ L i H). split; reflexivity.
Qed.
End Get.
