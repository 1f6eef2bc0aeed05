(** Properties C01-C15: index sets, iterator objects, degree recovery, grids.
    Model: IndexModel, MachineModel.  Specification vocabulary: Spec. *)
From Coq Require Import String List Bool Arith ZArith Lia.
From Verif Require Import Base IndexModel MachineModel Spec HashPrint Facts1 Degree.
Import ListNotations.

(** C01: the triangle list is complete, duplicate-free, has binom(degree + dim, dim) elements, and iterator_size returns that number whenever it fits a u_int (the conversion is undefined otherwise). *)
Theorem C01_triangle_complete : forall dim degree, 1 <= dim ->
  exists l, s_list Triangle dim degree = Ok l /\ NoDup l /\
    (forall m, In m l <-> length m = dim /\ list_sum m <= degree) /\
    length l = binom (degree + dim) dim /\
    s_size Triangle dim degree = if (Z.of_nat (length l) <? 2 ^ 32)%Z then Ok (Z.of_nat (length l)) else Ub.
Proof. exact tri_complete. Qed.
Print Assumptions C01_triangle_complete.
Example C01_triangle_complete_example : 1 <= 3 /\ s_list Triangle 2 2 = Ok [[0;0];[0;1];[1;0];[0;2];[1;1];[2;0]] /\ s_size Triangle 2 2 = Ok 6%Z.
Proof. repeat split; first [vm_compute; reflexivity | vm_compute; congruence | vm_compute; lia | left; reflexivity]. Qed.

(** C02: the cube list. *)
Theorem C02_cube_complete : forall dim degree, 1 <= dim ->
  exists l, s_list Cube dim degree = Ok l /\ NoDup l /\
    (forall m, In m l <-> length m = dim /\ Forall (fun x => x <= degree) m) /\
    length l = (degree + 1) ^ dim /\
    s_size Cube dim degree = if (Z.of_nat (length l) <? 2 ^ 32)%Z then Ok (Z.of_nat (length l)) else Ub.
Proof. exact cube_complete. Qed.
Print Assumptions C02_cube_complete.
Example C02_cube_complete_example : 1 <= 2 /\ s_list Cube 2 1 = Ok [[0;0];[1;0];[0;1];[1;1]] /\ s_size Cube 3 2 = Ok 27%Z.
Proof. repeat split; first [vm_compute; reflexivity | vm_compute; congruence | vm_compute; lia | left; reflexivity]. Qed.

(** C03: the rectangle list; the size is computed modulo 2^32. *)
Theorem C03_rectangle_complete : forall dim degree, 1 <= dim ->
  exists l, s_list Rectangle dim degree = Ok l /\ NoDup l /\
    (forall x t, In (x :: t) l <-> length (x :: t) = dim /\ x <= degree /\ Forall (fun y => 2 * y <= degree) t) /\
    ~ In [] l /\
    s_size Rectangle dim degree = Ok (Z.of_nat (length l) mod 2 ^ 32)%Z.
Proof. exact rect_complete. Qed.
Print Assumptions C03_rectangle_complete.
Example C03_rectangle_complete_example : 1 <= 2 /\ s_list Rectangle 2 2 = Ok [[0;0];[1;0];[2;0];[0;1];[1;1];[2;1]] /\ s_size Rectangle 2 2 = Ok 6%Z.
Proof. repeat split; first [vm_compute; reflexivity | vm_compute; congruence | vm_compute; lia | left; reflexivity]. Qed.

(** C04: the hyperbolic cross; degree 0 behaves as degree 1. *)
Theorem C04_cross_complete : forall dim degree, 1 <= dim ->
  exists l, s_list Cross dim degree = Ok l /\ NoDup l /\
    (forall m, In m l <-> length m = dim /\ cross_prod m <= Nat.max 1 degree) /\
    s_size Cross dim degree = Ok (Z.of_nat (length l) mod 2 ^ 32)%Z.
Proof. exact cross_complete. Qed.
Print Assumptions C04_cross_complete.
Example C04_cross_complete_example : 1 <= 2 /\ s_size Cross 2 2 = Ok 8%Z /\ s_list Cross 2 0 = s_list Cross 2 1 /\ cross_prod [3;0;2] = 6.
Proof. repeat split; first [vm_compute; reflexivity | vm_compute; congruence | vm_compute; lia | left; reflexivity]. Qed.

(** C05: the non-consistent cross is the same set, in triangle order, and its enumeration never ends the process. *)
Theorem C05_cross_nc_complete : forall dim degree, 1 <= dim -> nc_no_overflow dim degree ->
  exists l lt, s_list CrossNc dim degree = Ok l /\ NoDup l /\
    (forall m, In m l <-> length m = dim /\ cross_prod m <= Nat.max 1 degree) /\
    s_list Triangle dim (Nat.max 1 degree + dim - 1) = Ok lt /\
    l = filter (fun m => cross_prod m <=? Nat.max 1 degree) lt /\
    s_size CrossNc dim degree = Ok (Z.of_nat (length l) mod 2 ^ 32)%Z.
Proof. exact nc_complete. Qed.
Print Assumptions C05_cross_nc_complete.
Example C05_cross_nc_complete_example : nc_no_overflow 4 250 /\ s_list CrossNc 2 2 = Ok [[0;0];[0;1];[1;0];[0;2];[1;1];[2;0];[1;2];[2;1]].
Proof. split; [exact (ok_dim4 CrossNc 3 (le_n 3))|vm_compute; reflexivity]. Qed.

(** C05, without the overflow hypothesis: false (the product test wraps modulo 2^32). *)
Theorem C05_cross_nc_overflow_refuted : exists degree l m, s_list CrossNc 2 degree = Ok l /\ In m l /\ ~ cross_prod m <= Nat.max 1 degree.
Proof. exact nc_overflow. Qed.
Print Assumptions C05_cross_nc_overflow_refuted.
Example C05_cross_nc_overflow_refuted_example : nc_product [3;2] = 6%Z.
Proof. repeat split; first [vm_compute; reflexivity | vm_compute; congruence | vm_compute; lia | left; reflexivity]. Qed.

(** C06: the list for a smaller degree is a prefix of the list for a larger one. *)
Theorem C06_prefix : forall s dim degree degree', s <> CrossNc -> 1 <= dim -> degree <= degree' ->
  exists l l', s_list s dim degree = Ok l /\ s_list s dim degree' = Ok l' /\ prefix l l'.
Proof. exact prefix_ok. Qed.
Print Assumptions C06_prefix.
Example C06_prefix_example : Rectangle <> CrossNc /\ 1 <= 2 /\ 2 <= 3 /\ s_list Rectangle 2 2 <> s_list Rectangle 2 3.
Proof. repeat split; first [vm_compute; reflexivity | vm_compute; congruence | vm_compute; lia | left; reflexivity]. Qed.

(** C06 for cross_nc: false, as documented by its name. *)
Theorem C06_cross_nc_prefix_refuted : exists l l', s_list CrossNc 2 2 = Ok l /\ s_list CrossNc 2 3 = Ok l' /\ ~ prefix l l'.
Proof. exact prefix_nc_refuted. Qed.
Print Assumptions C06_cross_nc_prefix_refuted.
Example C06_cross_nc_prefix_refuted_example : s_size CrossNc 2 2 = Ok 8%Z.
Proof. repeat split; first [vm_compute; reflexivity | vm_compute; congruence | vm_compute; lia | left; reflexivity]. Qed.

(** C07: the closed-form triangle index is the position in the list. *)
Theorem C07_triangle_index : forall m degree l i, 1 <= length m -> s_list Triangle (length m) degree = Ok l ->
  nth_error l i = Some m -> (Z.of_nat i < 2 ^ 32)%Z -> tri_index m = Ok (Z.of_nat i).
Proof. exact tri_index_ok. Qed.
Print Assumptions C07_triangle_index.
Example C07_triangle_index_example : 1 <= length [2;1;3] /\ tri_index [2;1;3] = Ok 64%Z /\ match s_list Triangle 3 6 with Ok l => nth_error l 64 | _ => None end = Some [2;1;3].
Proof. repeat split; first [vm_compute; reflexivity | vm_compute; congruence | vm_compute; lia | left; reflexivity]. Qed.

(** C08: the closed-form cube index is the position in the list. *)
Theorem C08_cube_index : forall m degree l i, 1 <= length m -> s_list Cube (length m) degree = Ok l ->
  nth_error l i = Some m -> (Z.of_nat i < 2 ^ 32)%Z -> m <> repeat 0 (length m) -> cube_index m = Ok (Z.of_nat i).
Proof. exact cube_index_ok. Qed.
Print Assumptions C08_cube_index.
Example C08_cube_index_example : [2;1;3] <> repeat 0 3 /\ cube_index [2;1;3] = Ok 54%Z /\ match s_list Cube 3 4 with Ok l => nth_error l 54 | _ => None end = Some [2;1;3].
Proof. repeat split; first [vm_compute; reflexivity | vm_compute; congruence | vm_compute; lia | left; reflexivity]. Qed.

(** C08 at the zero vector, where the code converts -1.0 to an unsigned integer. *)
Theorem C08_cube_index_zero_refuted : forall dim, 1 <= dim -> cube_index (repeat 0 dim) = Ub.
Proof. exact cube_index_zero_ub. Qed.
Print Assumptions C08_cube_index_zero_refuted.
Example C08_cube_index_zero_refuted_example : 1 <= 3 /\ cube_index [0;0;0] = Ub.
Proof. repeat split; first [vm_compute; reflexivity | vm_compute; congruence | vm_compute; lia | left; reflexivity]. Qed.

(** C09: has and index are exact, and index of a non-member throws. *)
Theorem C09_lookup : forall s dim degree, 1 <= dim -> set_ok s dim degree ->
  exists it l, make_iterator s dim degree = Ok it /\ s_list s dim degree = Ok l /\
    (forall m, it_has it m = true <-> length m = dim /\ in_set s degree m) /\
    (forall m i, it_index it m = Ok i <-> nth_error l i = Some m) /\
    (forall m, it_has it m = false -> it_index it m = Throw "out_of_range").
Proof. exact lookup_ok. Qed.
Print Assumptions C09_lookup.
Example C09_lookup_example : set_ok Rectangle 2 2 /\ match make_iterator Rectangle 2 2 with Ok it => (it_index it [2;1], it_index it [0;2], it_has it [0;1]) | _ => (Ub, Ub, false) end = (Ok 5, Throw "out_of_range", true).
Proof. repeat split; first [vm_compute; reflexivity | vm_compute; congruence | vm_compute; lia | left; reflexivity]. Qed.

(** C09: no two multi-indices (of any lengths) share a hash-table key. *)
Theorem C09_hash_injective : forall v w, hash_print v = hash_print w -> v = w.
Proof. exact hash_print_inj. Qed.
Print Assumptions C09_hash_injective.
Example C09_hash_injective_example : hash_print [1;12] = "1-12-"%string /\ hash_print [11;2] = "11-2-"%string.
Proof. repeat split; first [vm_compute; reflexivity | vm_compute; congruence | vm_compute; lia | left; reflexivity]. Qed.

(** C10: after any history of increments and resets the iterator is at the right element, and resetting restores the initial state. *)
Theorem C10_iteration_protocol : forall s dim degree ops, 1 <= dim -> set_ok s dim degree ->
  exists it0 it l, make_iterator s dim degree = Ok it0 /\ run ops it0 = Ok it /\ s_list s dim degree = Ok l /\
    it_full it = (length l <=? since_reset ops) /\
    nth_error l (Nat.min (since_reset ops) (length l - 1)) = Some (it_multi_index it) /\
    (since_reset ops <= length l -> it_collect (S (length l)) it = Ok (skipn (since_reset ops) l)) /\
    it_reset it = it0.
Proof. exact history_ok. Qed.
Print Assumptions C10_iteration_protocol.
Example C10_iteration_protocol_example : set_ok Triangle 2 1 /\ since_reset [Inc; Inc; Reset; Inc] = 1 /\ match make_iterator Triangle 2 1 with Ok it => match run [Inc; Inc; Reset; Inc] it with Ok it => it_multi_index it | _ => [] end | _ => [] end = [0;1].
Proof. repeat split; first [vm_compute; reflexivity | vm_compute; congruence | vm_compute; lia | left; reflexivity]. Qed.

(** C11: get_degree inverts size in dimensions 1 to 4 up to degree 250; degrees 0 and 1 have the same cross sets and are not told apart. *)
Theorem C11_degree_recovery : forall s dim degree l, 1 <= dim <= 4 -> degree <= 250 -> s_list s dim degree = Ok l ->
  exists degree', s_get_degree s dim (Z.of_nat (length l)) = Ok degree' /\
    s_size s dim degree = Ok (Z.of_nat (length l)) /\
    degree' = match s with Cross => Nat.max 1 degree | CrossNc => if degree =? 1 then 0 else degree | _ => degree end /\
    s_list s dim degree' = Ok l.
Proof. exact recover_ok. Qed.
Print Assumptions C11_degree_recovery.
Example C11_degree_recovery_example : 1 <= 4 <= 4 /\ 17 <= 250 /\ s_get_degree Triangle 4 5985%Z = Ok 17.
Proof. repeat split; first [vm_compute; reflexivity | vm_compute; congruence | vm_compute; lia | left; reflexivity]. Qed.

(** C11 in every dimension where the size at degree 250 fits in 32 bits (for the crosses this goes beyond dimension 4). *)
Theorem C11_degree_recovery_any_dim : forall s dim degree l l250, 1 <= dim -> degree <= 250 -> set_ok s dim 250 ->
  s_list s dim 250 = Ok l250 -> (Z.of_nat (length l250) < 2 ^ 32)%Z ->
  s_list s dim degree = Ok l ->
  exists degree', s_get_degree s dim (Z.of_nat (length l)) = Ok degree' /\ s_list s dim degree' = Ok l.
Proof. exact recover_gen. Qed.
Print Assumptions C11_degree_recovery_any_dim.
Example C11_degree_recovery_any_dim_example : set_ok Cross 7 250 /\ 3 <= 250.
Proof. repeat split; first [vm_compute; reflexivity | vm_compute; congruence | vm_compute; lia | left; reflexivity]. Qed.

(** C12: for every f the bisection terminates, and a returned value is a solution. *)
Theorem C12_bisection_total : forall image (f : nat -> Z) max,
  (exists x, pos_bissect image (fun x => Ok (f x)) max = Ok x /\ x <= max /\ f x = image) \/
  pos_bissect image (fun x => Ok (f x)) max = Exit 0 \/ pos_bissect image (fun x => Ok (f x)) max = Exit 1.
Proof. exact bissect_total. Qed.
Print Assumptions C12_bisection_total.
Example C12_bisection_total_example : pos_bissect 9%Z (fun x => Ok (Z.of_nat (x * x))) 10 = Ok 3 /\ pos_bissect 10%Z (fun x => Ok (Z.of_nat (x * x))) 10 = Exit 1.
Proof. repeat split; first [vm_compute; reflexivity | vm_compute; congruence | vm_compute; lia | left; reflexivity]. Qed.

(** C12: for a monotone f the bisection finds a solution whenever there is one. *)
Theorem C12_bisection_complete : forall image (f : nat -> Z) max s,
  (forall x y, x <= y -> y <= max -> (f x <= f y)%Z) -> s <= max -> f s = image ->
  exists x, pos_bissect image (fun x => Ok (f x)) max = Ok x /\ x <= max /\ f x = image.
Proof. exact bissect_complete. Qed.
Print Assumptions C12_bisection_complete.
Example C12_bisection_complete_example : 3 <= 10 /\ Z.of_nat (3 * 3) = 9%Z.
Proof. repeat split; first [vm_compute; reflexivity | vm_compute; congruence | vm_compute; lia | left; reflexivity]. Qed.

(** C13 is false: in dimension 5 and above degree recovery is undefined behaviour for every n (triangle and cube). *)
Theorem C13_get_degree_refuted : forall s dim n, s = Triangle \/ s = Cube -> 5 <= dim -> s_get_degree s dim n = Ub.
Proof. exact get_degree_ub. Qed.
Print Assumptions C13_get_degree_refuted.
Example C13_get_degree_refuted_example : (Triangle = Triangle \/ Triangle = Cube) /\ 5 <= 5 /\ s_size Triangle 5 3 = Ok 56%Z.
Proof. repeat split; first [vm_compute; reflexivity | vm_compute; congruence | vm_compute; lia | left; reflexivity]. Qed.

(** C13 for the rectangle: a correctly computed size for which degree recovery ends the process. *)
Theorem C13_get_degree_rectangle_refuted : exists n, s_size Rectangle 5 145 = Ok n /\
  n = fold_left Z.mul (map (fun f => Z.of_nat (145 / f) + 1)%Z [1; 2; 2; 2; 2]%nat) 1%Z /\
  s_get_degree Rectangle 5 n = Exit 0.
Proof. exact get_degree_rect5. Qed.
Print Assumptions C13_get_degree_rectangle_refuted.
Example C13_get_degree_rectangle_refuted_example : s_size Rectangle 5 2 = Ok 48%Z.
Proof. repeat split; first [vm_compute; reflexivity | vm_compute; congruence | vm_compute; lia | left; reflexivity]. Qed.

(** C14: grids are enumerated in lexicographic order and index inverts the enumeration. *)
Theorem C14_grid : forall bounds, bounds <> [] -> Forall (fun b => 1 <= b) bounds ->
  exists l, grid_list bounds = Ok l /\ NoDup l /\
    (forall m, In m l <-> Forall2 lt m bounds) /\
    (forall i j m m', nth_error l i = Some m -> nth_error l j = Some m' -> i < j -> lex_lt m m') /\
    (forall i m, nth_error l i = Some m -> (Z.of_nat i < 2 ^ 32)%Z -> grid_index bounds m = Ok (Z.of_nat i)).
Proof. exact grid_ok. Qed.
Print Assumptions C14_grid.
Example C14_grid_example : [2;3] <> [] /\ grid_list [2;3] = Ok [[0;0];[0;1];[0;2];[1;0];[1;1];[1;2]] /\ grid_index [2;3] [1;1] = Ok 4%Z.
Proof. repeat split; first [vm_compute; reflexivity | vm_compute; congruence | vm_compute; lia | left; reflexivity]. Qed.

(** C15: with arithmetic modulo any word size M that leaves slack, the enumeration is the same as without wrap-around. *)
Theorem C15_no_overflow : forall s dim degree M, 1 <= dim -> set_ok s dim degree ->
  2 * (Nat.max 1 degree + dim) + 2 < M ->
  exists l, iterator_list_w M s dim degree = Ok l /\ s_list s dim degree = Ok l /\
    Forall (Forall (fun x => x <= Nat.max 1 degree)) l.
Proof. exact no_wrap. Qed.
Print Assumptions C15_no_overflow.
Example C15_no_overflow_example : set_ok Cross 3 4 /\ 2 * (Nat.max 1 4 + 3) + 2 < 20 /\ iterator_list_w 20 Cross 3 4 = s_list Cross 3 4 /\ iterator_list_w 3 Cube 2 4 <> s_list Cube 2 4.
Proof. repeat split; first [vm_compute; reflexivity | vm_compute; congruence | vm_compute; lia | left; reflexivity]. Qed.

