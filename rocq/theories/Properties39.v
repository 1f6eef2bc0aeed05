(** C105: what plot, __repr__, __float__ and __getitem__ show. *)
From Coq Require Import String List Bool Arith ZArith Lia.
From Verif Require Import Base IndexModel Num LinModel LinSpec LinBase Facts2 Spec PyBase PosModel PosSpec SeriesModel SeriesSpec SeriesFacts4 CoreModel ShowModel ShowSpec ShowFacts ShowFacts2.
Import ListNotations.
Local Open Scope string_scope. Local Open Scope list_scope. Local Open Scope nat_scope.

(** C105: the lines that Varf.plot draws for the triangle, the cube and the rectangle separate the degrees: line number n is at the number of basis functions of degree at most n, for n = 0, ..., degree - 1. *)
Theorem C105_lines : forall s dim degree, (s = Triangle \/ s = Cube \/ s = Rectangle) -> 1 <= dim -> plot_lines s dim degree = Ok (map (count_upto s dim) (seq 0 degree)).
Proof. intros s dim degree H. apply plot_lines_ok; intros ->; destruct H as [H|[H|H]]; discriminate H. Qed.
Print Assumptions C105_lines.

Example C105_lines_example : plot_lines Triangle 3 4 = Ok [1; 4; 10; 20] /\ plot_lines Rectangle 2 4 = Ok [1; 2; 6; 8].
Proof. split; vm_compute; reflexivity. Qed.

(** For the hyperbolic cross the first line is at 1, after the constant, although the degrees 0 and 1 have the same basis functions; the following ones separate the degrees. *)
Theorem C105_lines_cross : forall dim degree, 1 <= dim -> 1 <= degree -> plot_lines Cross dim degree = Ok (1 :: map (count_upto Cross dim) (seq 1 (degree - 1))).
Proof. exact plot_lines_cross. Qed.
Print Assumptions C105_lines_cross.

Example C105_lines_cross_example : plot_lines Cross 2 4 = Ok [1; 4; 8; 12] /\ count_upto Cross 2 0 = 4.
Proof. split; vm_compute; reflexivity. Qed.

(** So the lines do not separate the degrees for every index set, and not even the following ones do for the other cross. *)
Theorem C105_lines_refuted : ~ (forall s dim degree, 1 <= dim -> set_ok s dim degree -> plot_lines s dim degree = Ok (map (count_upto s dim) (seq 0 degree))) /\
  ~ (forall dim degree, 1 <= dim -> 1 <= degree -> set_ok CrossNc dim degree -> plot_lines CrossNc dim degree = Ok (1 :: map (count_upto CrossNc dim) (seq 1 (degree - 1)))).
Proof.
  split.
  - intros H. specialize (H Cross 2 2 ltac:(lia) I). vm_compute in H. discriminate H.
  - intros H. assert (K : set_ok CrossNc 2 4) by (apply (usable_set_ok CrossNc 2 4), usable_dim4; lia). specialize (H 2 4 ltac:(lia) ltac:(lia) K). vm_compute in H. discriminate H.
Qed.
Print Assumptions C105_lines_refuted.

(** Varf.plot of a dense form draws one point for each entry (i, j) above the threshold, at abscissa i - the row - and ordinate j, with the absolute value of the entry. *)
Theorem C105_dense : forall (N : num) (nabs : N -> N) visible A, NoDup (map fst (dense_points N nabs visible A)) /\
  forall i j x, In (i, j, x) (dense_points N nabs visible A) <-> exists a, dense_entry A i j a /\ visible a = true /\ x = nabs a.
Proof. intros N nabs visible A. split; [apply dense_nodup|apply dense_in]. Qed.
Print Assumptions C105_dense.

Definition seen (x : Z) : bool := negb (Z.eqb x 0).
Example C105_dense_example : dense_points num_Z Z.abs seen [[0; -5]; [7; 0]]%Z = [(0, 1, 5%Z); (1, 0, 7%Z)].
Proof. reflexivity. Qed.

(** Varf.plot of a sparse form draws the entries it stores, with their sign; what it does not draw is zero. *)
Theorem C105_sparse : forall (N : num) (c : csr N), num_laws N -> csr_distinct (c_indices c) (c_indptr c) (c_rows c) ->
  (forall i j x, In (i, j, x) (sparse_points N c) -> i < c_rows c /\ csr_entry (c_data c) (c_indices c) (c_indptr c) i j = x) /\
  (forall i j, i < c_rows c -> (forall x, ~ In (i, j, x) (sparse_points N c)) -> csr_entry (c_data c) (c_indices c) (c_indptr c) i j = n0).
Proof.
  intros N c L Hd. split.
  - intros i j x H. split; [apply (sparse_in N c i j x); exact H|apply sparse_entry; assumption].
  - intros i j. apply sparse_zero.
Qed.
Print Assumptions C105_sparse.

(** The pictures of a sparse form and of the same form made dense agree if the stored entries are above the threshold and not negative ... *)
Theorem C105_same : forall (N : num) (nabs : N -> N) visible (c : csr N), num_laws N -> csr_wf (c_data c) (c_indices c) (c_indptr c) (c_rows c) (c_cols c) -> csr_distinct (c_indices c) (c_indptr c) (c_rows c) ->
  visible n0 = false -> (forall x, In x (c_data c) -> visible x = true /\ nabs x = x) -> forall p, In p (sparse_points N c) <-> In p (dense_points N nabs visible (todense N c)).
Proof. intros N nabs visible c L. exact (same_points N nabs visible L c). Qed.
Print Assumptions C105_same.

Definition csr_pos : csr num_Z := Csr (N := num_Z) [2; 3; 1]%Z [0; 0; 1] [0; 1; 3] 2 2.
Definition csr_neg : csr num_Z := Csr (N := num_Z) [2; -3]%Z [0; 1] [0; 1; 2] 2 2.
Example C105_same_example : csr_wf (c_data csr_pos) (c_indices csr_pos) (c_indptr csr_pos) 2 2 /\ csr_distinct (c_indices csr_pos) (c_indptr csr_pos) 2 /\ (forall x, In x (c_data csr_pos) -> seen x = true /\ Z.abs x = x) /\
  sparse_points num_Z csr_pos = [(0, 0, 2%Z); (1, 0, 3%Z); (1, 1, 1%Z)].
Proof.
  split; [|split; [|split; [|reflexivity]]].
  - split; [cbn; lia|split; [reflexivity|split; [|repeat constructor]]]. intros [|[|i]] H; cbn; lia.
  - intros [|[|i]] j j' Hi Hj Hj' E; cbn in *; [lia| |lia]. destruct j as [|[|[|j]]]; try lia; destruct j' as [|[|[|j']]]; try lia; cbn in E; lia.
  - intros x [<-|[<-|[<-|[]]]]; split; reflexivity.
Qed.

(** ... but not in general: the dense picture shows the absolute values. *)
Theorem C105_same_refuted : ~ (forall (c : csr num_Z), csr_wf (c_data c) (c_indices c) (c_indptr c) (c_rows c) (c_cols c) -> csr_distinct (c_indices c) (c_indptr c) (c_rows c) ->
  (forall x, In x (c_data c) -> seen x = true) -> forall p, In p (sparse_points num_Z c) <-> In p (dense_points num_Z Z.abs seen (todense num_Z c))).
Proof.
  intros H. destruct (H csr_neg) with (p := (1, 1, (-3)%Z)) as [G _].
  - split; [cbn; lia|split; [reflexivity|split; [|repeat constructor]]]. intros [|[|i]] Hi; cbn in *; lia.
  - intros [|[|i]] j j' Hi Hj Hj' E; cbn in *; lia.
  - intros x [<-|[<-|[]]]; reflexivity.
  - cbn in G. destruct (G (or_intror (or_introl eq_refl))) as [K|[K|[]]]; discriminate K.
Qed.
Print Assumptions C105_same_refuted.

(** Series.plot draws, in one dimension, a bar at the degree of each basis function with its coefficient; in two dimensions a point at each multi-index with the absolute value of its coefficient. *)
Theorem C105_series : forall (N : num) (nabs : N -> N) E given (f : series N E),
  (series_ok f 1 -> series_plot N nabs E given f = Ok (Bars (map (fun m => (nth 0 m 0, series_at f m)) (points (s_set f) 1 (s_degree f))))) /\
  (series_ok f 2 -> series_plot N nabs E given f = Ok (Points (map (fun m => (nth 0 m 0, nth 1 m 0, nabs (series_at f m))) (points (s_set f) 2 (s_degree f))))).
Proof. intros. split; [apply plot1|apply plot2]. Qed.
Print Assumptions C105_series.

Example C105_series_example : series_ok (ser_n Cross 2 1) 2 /\ series_plot num_Z Z.abs nat true (ser_n Cross 2 1) = Ok (Points (N := num_Z) (map (fun m => (nth 0 m 0, nth 1 m 0, Z.abs (series_at (ser_n Cross 2 1) m))) [[0; 0]; [1; 0]; [0; 1]; [1; 1]])).
Proof. split; [apply ser_n_ok; apply usable_dim4; lia|]. rewrite (proj2 (C105_series num_Z Z.abs nat true _)) by (apply ser_n_ok; apply usable_dim4; lia). reflexivity. Qed.

(** In more than two dimensions it draws nothing, and raises UnboundLocalError if it is given axes to draw on. *)
Theorem C105_series_raises : forall (N : num) (nabs : N -> N) E given (f : series N E) dim, series_ok f dim -> 3 <= dim -> series_plot N nabs E given f = if given then Throw "UnboundLocalError" else Ok Empty.
Proof. exact plot_other. Qed.
Print Assumptions C105_series_raises.

Example C105_series_raises_example : series_ok (ser_n Triangle 3 1) 3.
Proof. apply ser_n_ok. apply usable_dim4; lia. Qed.

(** repr of a series is one line of text for each multi-index, in the order of the coefficients: the multi-index and its coefficient.  In dimension 0 there is one line; a series of dimension 0 with another number of coefficients than one has no repr. *)
Theorem C105_repr : forall (N : num) E show_index show_num (f : series N E),
  (forall dim, series_ok f dim -> series_repr N E show_index show_num f = Ok (String.concat EmptyString (map (fun m => text_line (show_index (Some m)) (show_num (series_at f m))) (points (s_set f) dim (s_degree f))))) /\
  (p_dim (s_pos f) = 0 -> series_repr N E show_index show_num f = match s_coeffs f with [c] => Ok (text_line (show_index None) (show_num c)) | _ => Throw "ValueError" end).
Proof. intros. split; [intros dim; apply repr_ok|apply repr_0]. Qed.
Print Assumptions C105_repr.

Definition show_sample (m : option mi) : string := match m with Some [0; 0] => "(0, 0)" | Some [1; 0] => "(1, 0)" | Some _ => "(0, 1)" | None => "None" end.
Example C105_repr_example : series_ok (ser_n Triangle 2 1) 2 /\ series_repr num_Z nat show_sample (fun x => if Z.eqb x 1 then "1.0" else "c") (ser_n Triangle 2 1) = Ok (text_line "(0, 0)" "1.0" ++ text_line "(0, 1)" "c" ++ text_line "(1, 0)" "c")%string.
Proof. split; [apply ser_n_ok; apply usable_dim4; lia|vm_compute; reflexivity]. Qed.

(** float(series) is the coefficient of a series of dimension 0, and raises ValueError for every other one; series[i] is the coefficient of the i-th multi-index, and raises IndexError beyond the last. *)
Theorem C105_float : forall (N : num) E (f : series N E),
  (forall c, p_dim (s_pos f) = 0 -> s_coeffs f = [c] -> series_float N E f = Ok c) /\ (p_dim (s_pos f) <> 0 -> series_float N E f = Throw "ValueError") /\
  (forall dim i, series_ok f dim -> series_getitem N E f i = match nth_error (points (s_set f) dim (s_degree f)) i with Some m => Ok (series_at f m) | None => Throw "IndexError" end).
Proof. intros. split; [apply float_0|split; [apply float_other|intros dim i; apply getitem_ok]]. Qed.
Print Assumptions C105_float.

Definition scalar_sample : series num_Z nat := @Ser num_Z nat [4%Z] (Pos (N := num_Z) [] [] [] [] true) Triangle 0 (Fn 7 []).
Example C105_float_example : p_dim (s_pos scalar_sample) = 0 /\ series_float num_Z nat scalar_sample = Ok 4%Z /\ series_float num_Z nat (ser_n Triangle 2 1) = Throw "ValueError" /\ series_ok (ser_n Triangle 2 1) 2.
Proof. split; [reflexivity|split; [reflexivity|split; [reflexivity|apply ser_n_ok; apply usable_dim4; lia]]]. Qed.
