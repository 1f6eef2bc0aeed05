(** The samples of C99. *)
From Coq Require Import String List Bool Arith ZArith Lia Sorted.
From Verif Require Import Base PyBase IndexModel Num LinModel LinSpec LinBase Facts2 PosModel PosSpec SeriesModel SeriesSpec SplitModel SplitSpec MulSpec MulFacts ProjModel RestrictSpec RestrictFacts.
Import ListNotations.
Local Open Scope list_scope. Local Open Scope nat_scope.

(** A series on the directions [d], its coefficients 1, 2, 3, ... *)
Definition count_series (s : iset) (degree n : nat) (d : list nat) : series num_Z expr := @Ser num_Z expr (map Z.of_nat (seq 1 n)) (std_pos d) s degree (Fn (EInt 1) d).
Definition no_far : list (list num_Z) -> bool := fun _ => false.
Notation sub := (series_subdegree num_Z expr (EInt 1)).
Notation project := (series_project num_Z no_far expr EMul (EInt 1) x_add_args x_mul_args x_free).

Lemma count_projectable : projectable (count_series Triangle 2 10 [0; 1; 2]) [0; 2].
Proof.
  split; [split; [split; [reflexivity|split; [reflexivity|apply usable_dim4; cbn; lia]]|reflexivity]|]. split; [repeat (split || constructor); cbn; intuition congruence|]. split; [repeat constructor|]. split; [repeat constructor|]. split; [discriminate|]. intros x [<-|[<-|[]]]; cbn; tauto.
Qed.
Lemma sub_there : forall (f : series num_Z expr) dim d, series_ok f dim -> s_set f <> CrossNc -> d <= 250 -> exists g, sub f d = Ok g /\ series_ok g dim /\ s_pos g = s_pos f /\ s_set g = s_set f /\ s_factor g = s_factor f.
Proof. intros f dim d H1 H2 H3. destruct (SeriesFacts.subdegree_spec num_Z expr (EInt 1) f dim d H1 H2 H3) as (g & G1 & G2 & G3 & G4 & G5 & _). exists g. repeat (split; [assumption|]). assumption. Qed.
Lemma project_there : forall (f : series num_Z expr) D w, projectable f D -> fun_project expr EMul (EInt 1) x_add_args x_mul_args x_free (s_factor f) D = Ok w ->
  exists g, project f D = Ok g /\ s_factor g = w /\ series_ok g (length D) /\ pos_ok (s_pos g) /\ p_dirs (s_pos g) = D /\ s_set g = s_set f /\ forall m, length m = length D -> series_at g m = series_at f (reindex D (p_dirs (s_pos f)) m).
Proof.
  intros f D w Hf Hw. pose proof Hf as (F1 & F2 & F3 & F4 & F5 & F6). destruct (ProjFacts.project_series num_Z no_far (fun _ => eq_refl) expr EMul (EInt 1) x_add_args x_mul_args x_free f D w F1 F2 F3 F4 F5 F6 Hw) as (g & G1 & G2 & G3 & G4 & _ & G6 & G7 & _).
  exists g. repeat (split; [assumption|]). exact (proj2 (proj2 (proj2 (proj2 (proj2 (proj2 (project_any num_Z expr (EInt 1) no_far (fun _ => eq_refl) EMul x_add_args x_mul_args x_free f g D Hf G1))))))).
Qed.

Lemma rectangle_order : ~ forall (f g a b c : series num_Z expr) D degree, projectable f D -> degree <= 250 ->
  project f D = Ok g -> sub g degree = Ok a -> sub f degree = Ok b -> project b D = Ok c -> same_series a c.
Proof.
  intros H. set (f := count_series Rectangle 4 15 [0; 1]). assert (Hf : projectable f [1]).
  { split; [split; [split; [reflexivity|split; [reflexivity|apply usable_dim4; cbn; lia]]|reflexivity]|]. split; [repeat (split || constructor); cbn; intuition congruence|]. split; [repeat constructor|]. split; [repeat constructor|]. split; [discriminate|]. intros x [<-|[]]; cbn; tauto. }
  destruct (project_there f [1] (Fn (EMul (EInt 1) (EInt 1)) [1]) Hf ltac:(vm_compute; reflexivity)) as (g & G & G2 & G3 & G4 & G5 & G6 & G7). destruct (sub_there g 1 2 G3 ltac:(rewrite G6; discriminate) ltac:(lia)) as (a & A & A1 & A2 & A3 & A4).
  destruct (sub_there f 2 2 (proj1 Hf) ltac:(discriminate) ltac:(lia)) as (b & B & B1 & B2 & B3 & B4). assert (Hb : projectable b [1]) by (unfold projectable; rewrite B2; split; [exact B1|exact (proj2 Hf)]).
  destruct (project_there b [1] (Fn (EMul (EInt 1) (EInt 1)) [1]) Hb ltac:(rewrite B4; vm_compute; reflexivity)) as (c & C & C2 & C3 & C4 & C5 & C6 & C7).
  destruct (H f g a b c [1] 2 Hf ltac:(lia) G A B C) as (_ & _ & _ & V).
  destruct (subdegree_inv num_Z expr (EInt 1) g a 1 2 G3 ltac:(lia) A) as (_ & _ & _ & _ & _ & I1 & I2). destruct (subdegree_inv num_Z expr (EInt 1) f b 2 2 (proj1 Hf) ltac:(lia) B) as (_ & _ & _ & _ & _ & J1 & _).
  assert (Ia : series_index a [2]) by (apply I1; rewrite G6; split; [reflexivity|cbn; repeat constructor]). specialize (V [2] Ia). rewrite (I2 [2] Ia), (G7 [2] eq_refl), (C7 [2] eq_refl) in V.
  rewrite (at_out num_Z expr b 2 _ B1) in V; [vm_compute in V; discriminate V|]. rewrite J1, B2. intros [_ K]. cbn in K. destruct K as [_ K]. inversion K; lia.
Qed.
