(** C106: which arrays and series share memory, and what changes what. *)
From Coq Require Import String List Bool Arith ZArith Lia.
From Verif Require Import Base IndexModel Num LinModel PyBase PosModel SeriesModel PartModel SplitModel MulModel ProjModel SolveModel HeapModel HeapSpec HeapFacts HeapFacts2 HeapFacts3.
Import ListNotations.
Local Open Scope string_scope. Local Open Scope list_scope. Local Open Scope nat_scope.

Section Heap.
Variable N : num.
Variable far : list (list N) -> bool.
Variable E : Type.
Variable e_mul e_div : E -> E -> E.
Variable e_1 : E.
Variables add_args mul_args : E -> list E.
Variable free_vars : E -> list nat.
Variable sym_eqb : E -> E -> bool.
Variable pos_eqb : position N -> position N -> bool.
Variable ndiv : N -> N -> N.
Variable round : nat -> N -> N.
Variable real : N -> N.
Variable is_complex : list N -> bool.
Notation exec := (exec N far E e_mul e_div e_1 add_args mul_args free_vars sym_eqb pos_eqb ndiv round real is_complex).
Notation run := (run N far E e_mul e_div e_1 add_args mul_args free_vars sym_eqb pos_eqb ndiv round real is_complex).

(** C106: after every history of calls, what a call returns or raises is what the function without memory (C31, C32, ...) returns or raises for the coefficients that its arguments have at that time. *)
Theorem C106_calls : forall h s, s = run start h ->
  (forall r r' f g, series_of s r = Some f -> series_of s r' = Some g -> agrees (exec (Add r r') s) (series_add N E sym_eqb e_1 pos_eqb f g) /\ agrees (exec (Sub r r') s) (series_sub N E sym_eqb e_1 pos_eqb f g)) /\
  (forall r f x, series_of s r = Some f -> agrees (exec (Scale r x) s) (series_scale N E e_1 x f) /\ agrees (exec (Div r x) s) (series_div N E e_1 ndiv f x) /\
     agrees (exec (AddNum r x) s) (series_init N E e_1 (map (fun y => nadd y x) (s_coeffs f)) (s_pos f) (Some (s_factor f)) (s_set f))) /\
  (forall r f degree, series_of s r = Some f -> agrees (exec (Subdegree r degree) s) (series_subdegree N E e_1 f degree) /\ agrees (exec (ToCross r degree) s) (series_to_cross N E e_1 f degree)) /\
  (forall r f ds, series_of s r = Some f -> agrees (exec (Project r ds) s) (series_project N far E e_mul e_1 add_args mul_args free_vars f ds)) /\
  (forall rs fs, Forall2 (fun r f => series_of s r = Some f) rs fs -> agrees (exec (Tensorize rs) s) (series_tensorize N far E e_mul e_div e_1 add_args mul_args free_vars sym_eqb fs)) /\
  (forall k l pos factor set, array_of s k = Some l -> agrees (exec (NewSeries k pos factor set 0) s) (series_init N E e_1 l pos factor set)).
Proof.
  intros h s ->. pose proof (reach_inv N far E e_mul e_div e_1 add_args mul_args free_vars sym_eqb pos_eqb ndiv round real is_complex h) as I. split; [|split; [|split; [|split; [|split]]]].
  - intros r r' f g Hf Hg. split; [apply add_made; assumption|apply sub_made; assumption].
  - intros r f x Hf. split; [|split]; apply (map_made N E e_1 round _ _ r f I Hf).
  - intros r f degree Hf. split; [|apply to_cross_made; assumption]. apply object_ok in Hf as (o & Ho & <-). destruct (Nat.le_gt_cases degree (o_degree o)) as [D|D]; [apply (subdegree_down N E e_1 round _ r o degree I Ho D)|apply (subdegree_up N E e_1 round _ r o degree I Ho D)].
  - intros r f ds Hf. apply project_made; assumption.
  - intros rs fs H. destruct H as [|r f rs fs Hf H]; [reflexivity|]. apply (loop_made N far E e_mul e_div e_1 add_args mul_args free_vars sym_eqb round rs fs _ r f I Hf H).
  - intros k l pos factor set Hl. unfold array_of in Hl. destruct (nth_error (arrs (run start h)) k) as [b|] eqn:Hb; [|discriminate Hl]. injection Hl as <-. apply new_agrees; assumption.
Qed.

(** A series keeps its coefficients, whatever is called, as long as nothing writes to an array that has an element in common with its coefficients - a[i] = x, or the constructor with significant digits - and it is not plotted; likewise an array. *)
Theorem C106_frame : forall h h' s, s = run start h ->
  (forall r o, nth_error (objs s) r = Some o -> (forall h1 c h2, h' = h1 ++ c :: h2 -> leaves_array c (run s h1) (o_coeffs o) /\ leaves_series c r) -> series_of (run s h') r = series_of s r) /\
  (forall k a, nth_error (arrs s) k = Some a -> (forall h1 c h2, h' = h1 ++ c :: h2 -> leaves_array c (run s h1) a) -> array_of (run s h') k = array_of s k).
Proof.
  intros h h' s ->. pose proof (reach_inv N far E e_mul e_div e_1 add_args mul_args free_vars sym_eqb pos_eqb ndiv round real is_complex h) as I. split.
  - intros r o Ho H. apply (frame_series N far E e_mul e_div e_1 add_args mul_args free_vars sym_eqb pos_eqb ndiv round real is_complex h' _ r o I Ho H).
  - intros k a Ha H. unfold array_of. rewrite (frame_held N far E e_mul e_div e_1 add_args mul_args free_vars sym_eqb pos_eqb ndiv round real is_complex h' _ k a I Ha), Ha. cbn [option_map]. f_equal. apply (frame_array N far E e_mul e_div e_1 add_args mul_args free_vars sym_eqb pos_eqb ndiv round real is_complex h' _ a I (proj1 I a (nth_error_In _ _ Ha)) H).
Qed.

(** In particular arithmetic, products, projections, changes of degree, slices, and the constructor without significant digits change no series and no array. *)
Theorem C106_harmless : forall h h', Forall (fun c => harmless c = true) h' -> forall r f, series_of (run start h) r = Some f -> series_of (run (run start h) h') r = Some f.
Proof.
  intros h h' H r f Hf. pose proof Hf as Hf'. apply object_ok in Hf as (o & Ho & _). destruct (C106_frame h h' _ eq_refl) as (F & _). rewrite (F r o Ho); [exact Hf'|]. intros h1 c h2 ->. apply Forall_app in H as [_ H]. inversion H as [|c0 l0 Hc Hl]; subst. destruct c as [| | | |? ? ? ? []| | | | | | | | | |]; cbn in *; try discriminate Hc; split; exact Logic.I.
Qed.

(** Arithmetic, products of two or more series, projections, to_cross and subdegree to a higher degree return a new series, whose coefficients have no element in common with any array or series that the program knew. *)
Theorem C106_fresh : forall h c s' r, computes (run start h) c -> exec c (run start h) = (s', Ok r) ->
  length (objs (run start h)) <= r /\ exists o, nth_error (objs s') r = Some o /\ forall a, known (run start h) a -> apart a (o_coeffs o).
Proof. exact (computes_apart N far E e_mul e_div e_1 add_args mul_args free_vars sym_eqb pos_eqb ndiv round real is_complex). Qed.

(** subdegree to a degree that is not higher returns a series that shares its coefficients with the original: writing to the array of either changes both. *)
Theorem C106_subdegree_shares : forall h r o degree s' q k b i x, nth_error (objs (run start h)) r = Some o -> degree <= o_degree o -> exec (Subdegree r degree) (run start h) = (s', Ok q) ->
  nth_error (arrs s') k = Some b -> ((exists o', nth_error (objs s') q = Some o' /\ b = o_coeffs o') \/ b = o_coeffs o) ->
  forall o', nth_error (objs s') q = Some o' -> i < a_len (o_coeffs o') ->
  (exists f, series_of (fst (exec (SetItem k i x) s')) r = Some f /\ nth_error (s_coeffs f) i = Some x) /\ (exists f, series_of (fst (exec (SetItem k i x) s')) q = Some f /\ nth_error (s_coeffs f) i = Some x).
Proof. exact (shares N far E e_mul e_div e_1 add_args mul_args free_vars sym_eqb pos_eqb ndiv round real is_complex). Qed.

(** tensorize of one series returns this series, not a copy. *)
Theorem C106_tensorize_one : forall s r, exec (Tensorize [r]) s = (s, Ok r).
Proof. reflexivity. Qed.

(** A series made from a contiguous array follows later changes of the array; one made from an array that is not contiguous has a copy. *)
Theorem C106_new_shares : forall h a b pos factor set s' q i x, nth_error (arrs (run start h)) a = Some b -> exec (NewSeries a pos factor set 0) (run start h) = (s', Ok q) -> i < a_len b ->
  if contiguous b then exists f, series_of (fst (exec (SetItem a i x) s')) q = Some f /\ nth_error (s_coeffs f) i = Some x else series_of (fst (exec (SetItem a i x) s')) q = series_of s' q.
Proof. exact (new_shares N far E e_mul e_div e_1 add_args mul_args free_vars sym_eqb pos_eqb ndiv round real is_complex). Qed.

(** The constructor with significant digits rounds the array that it is given, also when it makes a copy and also when it raises because of the factor. *)
Theorem C106_rounds : forall h a b pos factor set k d, nth_error (arrs (run start h)) a = Some b -> init_degree N (a_len b) pos set = Ok d ->
  array_of (fst (exec (NewSeries a pos factor set (S k)) (run start h))) a = Some (map (round (S k)) (read (run start h) b)) /\
  agrees (exec (NewSeries a pos factor set (S k)) (run start h)) (series_init N E e_1 (map (round (S k)) (read (run start h) b)) pos factor set).
Proof. exact (rounds N far E e_mul e_div e_1 add_args mul_args free_vars sym_eqb pos_eqb ndiv round real is_complex). Qed.

(** Quad.plot replaces the coefficients of a complex series that it is given by their real parts; it changes no other series and no array. *)
Theorem C106_plot : forall h r f, series_of (run start h) r = Some f ->
  series_of (fst (exec (Plot r) (run start h))) r = Some (if is_complex (s_coeffs f) then Ser (map real (s_coeffs f)) (s_pos f) (s_set f) (s_degree f) (s_factor f) else f) /\
  (forall q, q <> r -> series_of (fst (exec (Plot r) (run start h))) q = series_of (run start h) q) /\ (forall k, array_of (fst (exec (Plot r) (run start h))) k = array_of (run start h) k).
Proof. exact (plots N far E e_mul e_div e_1 add_args mul_args free_vars sym_eqb pos_eqb ndiv round real is_complex). Qed.

(** After every history the coefficients of every series are contiguous in memory. *)
Theorem C106_contiguous : forall h o, In o (objs (run start h)) -> contiguous (o_coeffs o) = true.
Proof. intros h o Ho. apply (reach_inv N far E e_mul e_div e_1 add_args mul_args free_vars sym_eqb pos_eqb ndiv round real is_complex h). exact Ho. Qed.
End Heap.
Print Assumptions C106_calls.
Print Assumptions C106_frame.
Print Assumptions C106_harmless.
Print Assumptions C106_fresh.
Print Assumptions C106_subdegree_shares.
Print Assumptions C106_tensorize_one.
Print Assumptions C106_new_shares.
Print Assumptions C106_rounds.
Print Assumptions C106_plot.
Print Assumptions C106_contiguous.

(** A program with integers for numbers: rounding makes them even, the odd ones are complex. *)
Definition tens (_ : nat) (x : Z) : Z := (2 * (x / 2))%Z.
Definition exec_z := exec num_Z (fun _ => false) nat Nat.mul Nat.div 1 (fun e => [e]) (fun e => [e]) (fun _ => []) Nat.eqb (fun _ _ => true) Z.div tens (fun x => (x - 1)%Z) (existsb Z.odd).
Definition run_z := run num_Z (fun _ => false) nat Nat.mul Nat.div 1 (fun e => [e]) (fun e => [e]) (fun _ => []) Nat.eqb (fun _ _ => true) Z.div tens (fun x => (x - 1)%Z) (existsb Z.odd).
Definition pos_z : position num_Z := Pos (N := num_Z) [0; 1] [0; 0]%Z [[1; 0]; [0; 1]]%Z ["hermite"; "hermite"] true.
(** a = np.array([5, 6, 7, 8, 9, 10]); b = a[::2]; f = Series(a, ...); g = Series(b, ...); c = f.coeffs. *)
Definition program : list (call num_Z nat) := [NewArray (N := num_Z) [5; 6; 7; 8; 9; 10]%Z; Slice 0 0 3 2%Z; NewSeries 0 pos_z (Some (Fn 7 [0; 1])) Triangle 0; NewSeries 1 pos_z (Some (Fn 7 [0; 1])) Triangle 0; Coeffs 0].
Definition coeffs_z (s : state num_Z nat) : list (list Z) := map (fun o => read s (o_coeffs o)) (objs s).
Definition arrays_z (s : state num_Z nat) : list (list Z) := map (read s) (arrs s).

Example C106_calls_example : coeffs_z (run_z start (program ++ [Add 0 0; Subdegree 0 1; Scale (N := num_Z) 1 3%Z; SetItem (N := num_Z) 0 2 100%Z; Sub 0 2])) = [[5; 6; 100; 8; 9; 10]; [5; 7; 9]; [10; 12; 14; 16; 18; 20]; [5; 6; 100]; [15; 21; 27]; [-10; -12; -14; -16; -18; -20]; [-5; -6; 86; -8; -9; -10]]%Z.
Proof. vm_compute. reflexivity. Qed.
(** Writing to b changes a and f, but neither g, which has a copy, nor the sum. *)
Example C106_frame_example : let s := run_z start (program ++ [Add 0 0]) in coeffs_z (run_z s [SetItem (N := num_Z) 1 1 (-1)%Z]) = [[5; 6; -1; 8; 9; 10]; [5; 7; 9]; [10; 12; 14; 16; 18; 20]]%Z /\ arrays_z (run_z s [SetItem (N := num_Z) 1 1 (-1)%Z]) = [[5; 6; -1; 8; 9; 10]; [5; -1; 9]; [5; 6; -1; 8; 9; 10]]%Z.
Proof. split; vm_compute; reflexivity. Qed.
Example C106_fresh_example : computes (run_z start program) (Add 0 0) /\ snd (exec_z (Add 0 0) (run_z start program)) = Ok 2.
Proof. split; [exact I|vm_compute; reflexivity]. Qed.
Example C106_subdegree_example : snd (exec_z (Subdegree 0 1) (run_z start program)) = Ok 2 /\ coeffs_z (run_z start (program ++ [Subdegree 0 1; Coeffs 2; SetItem (N := num_Z) 3 0 50%Z])) = [[50; 6; 7; 8; 9; 10]; [5; 7; 9]; [50; 6; 7]]%Z.
Proof. split; vm_compute; reflexivity. Qed.
Example C106_rounds_example : arrays_z (fst (exec_z (NewSeries 1 pos_z (Some (Fn 7 [0; 1])) Triangle 2) (run_z start program))) = [[4; 6; 6; 8; 8; 10]; [4; 6; 8]; [4; 6; 6; 8; 8; 10]]%Z.
Proof. vm_compute. reflexivity. Qed.
Example C106_plot_example : coeffs_z (fst (exec_z (Plot 0) (run_z start program))) = [[4; 5; 6; 7; 8; 9]; [5; 7; 9]]%Z.
Proof. vm_compute. reflexivity. Qed.

(** So it is not true that calls other than assignments to elements of arrays leave every series as it is, ... *)
Theorem C106_changes_refuted : ~ (forall h c r f, (forall k i x, c <> SetItem k i x) -> series_of (run_z start h) r = Some f -> series_of (fst (exec_z c (run_z start h))) r = Some f).
Proof.
  intros H. specialize (H program (NewSeries 1 pos_z (Some (Fn 7 [0; 1])) Triangle 2) 0).
  assert (X : option_map s_coeffs (series_of (run_z start program) 0) = Some [5; 6; 7; 8; 9; 10]%Z /\ option_map s_coeffs (series_of (fst (exec_z (NewSeries 1 pos_z (Some (Fn 7 [0; 1])) Triangle 2) (run_z start program))) 0) = Some [4; 6; 6; 8; 8; 10]%Z) by (split; vm_compute; reflexivity).
  revert H X. generalize (fst (exec_z (NewSeries 1 pos_z (Some (Fn 7 [0; 1])) Triangle 2) (run_z start program))). generalize (run_z start program). intros s1 s2 H (X1 & X2). destruct (series_of s1 0) as [f|]; [|discriminate X1]. rewrite (H f ltac:(discriminate) eq_refl) in X2. cbn [option_map] in X1, X2. rewrite X1 in X2. discriminate X2.
Qed.
Print Assumptions C106_changes_refuted.

(** ... and not true that a series that a call returns has coefficients of its own. *)
Theorem C106_own_refuted : ~ (forall h c s' q, (forall k pos factor set n, c <> NewSeries k pos factor set n) -> exec_z c (run_z start h) = (s', Ok q) -> forall r o o', r <> q -> nth_error (objs s') r = Some o -> nth_error (objs s') q = Some o' -> apart (o_coeffs o) (o_coeffs o')).
Proof.
  intros H. specialize (H program (Subdegree 0 1)). destruct (exec_z (Subdegree 0 1) (run_z start program)) as [s' x] eqn:Ex. assert (Y : snd (exec_z (Subdegree 0 1) (run_z start program)) = Ok 2) by (vm_compute; reflexivity). rewrite Ex in Y. cbn [snd] in Y. subst x. specialize (H s' 2 ltac:(discriminate) eq_refl 0).
  apply (f_equal fst) in Ex. cbn [fst] in Ex. assert (X : option_map o_coeffs (nth_error (objs (fst (exec_z (Subdegree 0 1) (run_z start program)))) 0) = Some (Arr 0 0 1 6) /\ option_map o_coeffs (nth_error (objs (fst (exec_z (Subdegree 0 1) (run_z start program)))) 2) = Some (Arr 0 0 1 3)) by (split; vm_compute; reflexivity). rewrite Ex in X. destruct X as (X0 & X2).
  destruct (nth_error (objs s') 0) as [o|]; [|discriminate X0]. destruct (nth_error (objs s') 2) as [o'|]; [|discriminate X2]. injection X0 as X0. injection X2 as X2. destruct (H o o' ltac:(discriminate) eq_refl eq_refl) as [D|D]; rewrite X0, X2 in D; [apply D; reflexivity|]. apply (D 0 0); cbn; lia.
Qed.
Print Assumptions C106_own_refuted.
