(** Proofs for C106. *)
From Coq Require Import String List Bool Arith ZArith Lia.
From Verif Require Import Base Lists IndexModel Num LinModel PyBase PosModel SeriesModel PartModel SplitModel MulModel ProjModel SolveModel HeapModel HeapSpec.
Import ListNotations.
Local Open Scope string_scope. Local Open Scope list_scope. Local Open Scope nat_scope.

Lemma f2_impl : forall A B (P Q : A -> B -> Prop) l l', (forall a b, P a b -> Q a b) -> Forall2 P l l' -> Forall2 Q l l'.
Proof. intros A B P Q l l' H F. induction F; constructor; auto. Qed.

Section Heap.
Variable N : num.
Variable far : list (list N) -> bool.
Variable E : Type.
Variable e_mul e_div : E -> E -> E.
Variable e_1 : E.
Variables add_args mul_args : E -> list E.
Variable free_vars : E -> list nat.
Variable sym_eqb : E -> E -> bool.
Variable pos_eqb : position N -> position N -> bool.
Variable ndiv : N -> N -> N.
Variable round : nat -> N -> N.
Variable real : N -> N.
Variable is_complex : list N -> bool.
Notation state := (state N E).
Notation st A := (HeapModel.st N E A).

Definition view_ok (s : state) (a : array) : Prop :=
  a_buf a < length (bufs s) /\ a_step a <> 0%Z /\ forall i, i < a_len a -> (0 <= Z.of_nat (a_off a) + Z.of_nat i * a_step a < Z.of_nat (length (nth (a_buf a) (bufs s) [])))%Z.
Definition inv (s : state) : Prop := (forall a, In a (arrs s) -> view_ok s a) /\ (forall o, In o (objs s) -> view_ok s (o_coeffs o) /\ contiguous (o_coeffs o) = true).
(** No buffer gets shorter or disappears, and nothing made before is replaced. *)
Definition grows (s s' : state) : Prop := (exists more, bufs s' = bufs s ++ more) /\ (exists more, arrs s' = arrs s ++ more) /\ (exists more, objs s' = objs s ++ more).
Lemma grows_refl : forall s, grows s s.
Proof. intros s. repeat split; exists []; rewrite app_nil_r; reflexivity. Qed.
Lemma grows_trans : forall s1 s2 s3, grows s1 s2 -> grows s2 s3 -> grows s1 s3.
Proof. intros s1 s2 s3 ((a1 & A1) & (b1 & B1) & (c1 & C1)) ((a2 & A2) & (b2 & B2) & (c2 & C2)). split; [|split]; [exists (a1 ++ a2)|exists (b1 ++ b2)|exists (c1 ++ c2)]; rewrite app_assoc; congruence. Qed.
Lemma grows_buf : forall s s' k, grows s s' -> k < length (bufs s) -> nth k (bufs s') [] = nth k (bufs s) [].
Proof. intros s s' k ((m & ->) & _) H. apply app_nth1. exact H. Qed.
Lemma grows_view : forall s s' a, grows s s' -> view_ok s a -> view_ok s' a.
Proof.
  intros s s' a G (H1 & H2 & H3). split; [|split; [exact H2|]].
  - destruct G as ((m & ->) & _). rewrite app_length. lia.
  - intros i Hi. rewrite (grows_buf s s') by assumption. apply H3. exact Hi.
Qed.
Lemma grows_read : forall s s' a, grows s s' -> view_ok s a -> read s' a = read s a.
Proof. intros s s' a G (H1 & _). unfold read. rewrite (grows_buf s s') by assumption. reflexivity. Qed.
Lemma grows_obj : forall s s' r o, grows s s' -> nth_error (objs s) r = Some o -> nth_error (objs s') r = Some o.
Proof. intros s s' r o (_ & _ & (m & ->)) H. rewrite nth_error_app1; [exact H|]. apply nth_error_Some. congruence. Qed.
Lemma grows_arr : forall s s' r o, grows s s' -> nth_error (arrs s) r = Some o -> nth_error (arrs s') r = Some o.
Proof. intros s s' r o (_ & (m & ->) & _) H. rewrite nth_error_app1; [exact H|]. apply nth_error_Some. congruence. Qed.
Lemma grows_bufs : forall s s', grows s s' -> length (bufs s) <= length (bufs s') /\ length (objs s) <= length (objs s').
Proof. intros s s' ((m & ->) & _ & (m' & ->)). rewrite !app_length. lia. Qed.

Lemma inv_grows : forall s s', inv s -> grows s s' -> (forall a, In a (arrs s') -> In a (arrs s) \/ view_ok s' a) -> (forall o, In o (objs s') -> In o (objs s) \/ (view_ok s' (o_coeffs o) /\ contiguous (o_coeffs o) = true)) -> inv s'.
Proof.
  intros s s' (I1 & I2) G Ha Ho. split.
  - intros a H. destruct (Ha a H) as [K|K]; [apply (grows_view s); auto|exact K].
  - intros o H. destruct (Ho o H) as [K|K]; [|exact K]. destruct (I2 o K) as [V C]. split; [apply (grows_view s); auto|exact C].
Qed.
Lemma alloc_grows : forall l s, grows s (fst (alloc N E l s)).
Proof. intros l s. cbn. split; [exists [l]; reflexivity|split; exists []; rewrite app_nil_r; reflexivity]. Qed.
Lemma alloc_read : forall l s a, snd (alloc N E l s) = Ok a -> read (fst (alloc N E l s)) a = l /\ view_ok (fst (alloc N E l s)) a /\ contiguous a = true /\ a_buf a = length (bufs s) /\ a_len a = length l.
Proof.
  intros l s a [= <-]. cbn [alloc fst read a_len a_buf bufs]. unfold read. cbn [bufs a_buf a_len]. rewrite app_nth2, Nat.sub_diag by lia. cbn [nth]. split; [|split; [|split; [|split; reflexivity]]].
  - rewrite (map_ext_in _ (fun i => nth i l n0)).
    + apply nth_ext with (d := n0) (d' := n0); [rewrite map_length, seq_length; reflexivity|]. intros i Hi. rewrite map_length, seq_length in Hi. rewrite (nth_indep _ n0 (nth 0 l n0)) by (rewrite map_length, seq_length; exact Hi). rewrite map_nth with (f := fun i => nth i l n0). rewrite seq_nth by exact Hi. reflexivity.
    + intros i _. f_equal. unfold cell. cbn [a_off a_step]. lia.
  - split; [cbn [bufs a_buf]; rewrite app_length; cbn; lia|split; [cbn; lia|]]. intros i Hi. cbn [a_off a_step bufs a_buf a_len] in *. rewrite app_nth2, Nat.sub_diag by lia. cbn [nth]. lia.
  - unfold contiguous. cbn [a_step]. rewrite orb_true_r. reflexivity.
Qed.

(** An outcome that writes to nothing that exists and returns a new series with new coefficients, as the pure function [p] says. *)
Definition as_nat {A} (p : res A) : res nat := match p with Ok _ => NoFuel | Ub => Ub | Exit c => Exit c | Throw e => Throw e | NoFuel => NoFuel end.
Definition made (s : state) (out : state * res nat) (p : res (series N E)) : Prop :=
  inv (fst out) /\ grows s (fst out) /\ agrees out p /\ forall r, snd out = Ok r -> exists o, nth_error (objs (fst out)) r = Some o /\ length (objs s) <= r /\ length (bufs s) <= a_buf (o_coeffs o).
Notation new_series := (new_series N E e_1 round).
Definition with_bufs (s : state) (more : list (list N)) : state := St (bufs s ++ more) (arrs s) (objs s).
Lemma with_grows : forall s more, grows s (with_bufs s more).
Proof. intros s more. split; [exists more; reflexivity|split; exists []; rewrite app_nil_r; reflexivity]. Qed.
Lemma with_inv : forall s more, inv s -> inv (with_bufs s more).
Proof. intros s more I. apply (inv_grows s); [exact I|apply with_grows|intros a Ha; left; exact Ha|intros o Ho; left; exact Ho]. Qed.
Definition with_obj (s : state) (o : object N E) : state := St (bufs s) (arrs s) (objs s ++ [o]).
Lemma with_obj_grows : forall s o, grows s (with_obj s o).
Proof. intros s o. split; [exists []; rewrite app_nil_r; reflexivity|split; [exists []; rewrite app_nil_r; reflexivity|exists [o]; reflexivity]]. Qed.
Lemma with_obj_inv : forall s o, inv s -> view_ok s (o_coeffs o) -> contiguous (o_coeffs o) = true -> inv (with_obj s o).
Proof.
  intros s o I V C. apply (inv_grows s); [exact I|apply with_obj_grows|intros a Ha; left; exact Ha|]. intros b Hb. cbn in Hb. apply in_app_or in Hb as [Hb|[<-|[]]]; [left; exact Hb|right; split; [apply (grows_view s); [apply with_obj_grows|exact V]|exact C]].
Qed.
Lemma with_obj_last : forall s o, nth_error (objs (with_obj s o)) (length (objs s)) = Some o.
Proof. intros s o. cbn. rewrite nth_error_app2, Nat.sub_diag by lia. reflexivity. Qed.
Definition fresh (s : state) (l : list N) : array := Arr (length (bufs s)) 0 1%Z (length l).
Lemma read_length : forall s a, length (read (N := N) (E := E) s a) = a_len a.
Proof. intros s a. unfold read. rewrite map_length, seq_length. reflexivity. Qed.
Lemma init_split : forall l pos factor set, series_init N E e_1 l pos factor set = bind (init_degree N (length l) pos set) (fun degree => bind (factor_init E e_1 factor (p_dirs pos)) (fun f => Ok (Ser l pos set degree f))).
Proof. intros. unfold series_init, init_degree. destruct (p_dirs pos); reflexivity. Qed.
(** Series.__init__ without rounding. *)
Lemma new_eval : forall s c pos factor set, new_series c pos factor set 0 s =
  match series_init N E e_1 (read s c) pos factor set with
  | Ok f => if contiguous c then (with_obj s (Obj c pos set (s_degree f) (s_factor f)), Ok (length (objs s)))
            else (with_obj (with_bufs s [read s c]) (Obj (fresh s (read s c)) pos set (s_degree f) (s_factor f)), Ok (length (objs s)))
  | p => (s, as_nat p)
  end.
Proof.
  intros s c pos factor set. rewrite init_split, read_length. unfold HeapModel.new_series, sbind, lift. destruct (init_degree N (a_len c) pos set) as [degree| | | |]; cbn [bind as_nat]; try reflexivity. cbn [Nat.eqb ret]. destruct (factor_init E e_1 factor (p_dirs pos)) as [f| | | |]; cbn [bind as_nat]; try reflexivity. cbn [s_degree s_factor].
  destruct (contiguous c); reflexivity.
Qed.
Lemma fresh_ok : forall s l, view_ok (with_bufs s [l]) (fresh s l) /\ contiguous (fresh s l) = true /\ read (with_bufs s [l]) (fresh s l) = l.
Proof. intros s l. destruct (alloc_read l s (fresh s l) eq_refl) as (R & V & C & _). split; [exact V|split; [exact C|exact R]]. Qed.
(** An array that is computed and given to the constructor. *)
Lemma compute_made : forall s l pos factor set, inv s -> made s ((sbind N E (alloc N E l) (fun c => new_series c pos factor set 0)) s) (series_init N E e_1 l pos factor set).
Proof.
  intros s l pos factor set I. destruct (fresh_ok s l) as (V & C & R). change ((sbind N E (alloc N E l) (fun c => new_series c pos factor set 0)) s) with (new_series (fresh s l) pos factor set 0 (with_bufs s [l])). rewrite new_eval, R, C.
  destruct (series_init N E e_1 l pos factor set) as [f| | | |] eqn:Ef; cbn [as_nat]; try (split; [apply with_inv; exact I|split; [apply with_grows|split; [reflexivity|intros r Hr; discriminate Hr]]]).
  set (o := Obj (fresh s l) pos set (s_degree f) (s_factor f)). cbn [fst snd]. split; [apply with_obj_inv; [apply with_inv; exact I|exact V|exact C]|]. split; [eapply grows_trans; [apply with_grows|apply with_obj_grows]|]. split.
  - exists (length (objs s)). split; [reflexivity|]. unfold series_of. cbn [fst]. pose proof (with_obj_last (with_bufs s [l]) o) as WL. change (length (objs (with_bufs s [l]))) with (length (objs s)) in WL. rewrite WL. cbn [option_map]. f_equal. unfold look_at. cbn [o_coeffs o_pos o_set o_degree o_factor o]. rewrite (grows_read _ _ _ (with_obj_grows (with_bufs s [l]) o) V), R.
    rewrite init_split in Ef. destruct (init_degree N (length l) pos set); cbn [bind] in Ef; try discriminate Ef. destruct (factor_init E e_1 factor (p_dirs pos)); cbn [bind] in Ef; try discriminate Ef. injection Ef as <-. reflexivity.
  - intros r [= <-]. exists o. split; [apply (with_obj_last (with_bufs s [l]) o)|split; [cbn; lia|cbn; lia]].
Qed.
Lemma made_fail : forall s (p : res (series N E)) (x : res nat), inv s -> match p with Ok _ => False | Ub => x = Ub | Exit c => x = Exit c | Throw e => x = Throw e | NoFuel => x = NoFuel end -> made s (s, x) p.
Proof. intros s p x I H. split; [exact I|split; [apply grows_refl|]]. destruct p; [contradiction H| | | |]; subst x; (split; [reflexivity|intros r Hr; discriminate Hr]). Qed.
Lemma made_fail' : forall s s' (p : res (series N E)) (x : res nat), inv s' -> grows s s' -> match p with Ok _ => False | Ub => x = Ub | Exit c => x = Exit c | Throw e => x = Throw e | NoFuel => x = NoFuel end -> made s (s', x) p.
Proof. intros s s' p x I G H. split; [exact I|split; [exact G|]]. destruct p; [contradiction H| | | |]; subst x; (split; [reflexivity|intros r Hr; discriminate Hr]). Qed.

Lemma object_ok : forall (s : state) r f, series_of s r = Some f -> exists o, nth_error (objs s) r = Some o /\ look_at s o = f.
Proof. intros s r f H. unfold series_of in H. destruct (nth_error (objs s) r) as [o|]; [|discriminate H]. injection H as H. exists o. split; [reflexivity|exact H]. Qed.
Ltac fails := cbn [bind]; try (apply made_fail; [assumption|reflexivity]).
Lemma add_made : forall s r r' f g, inv s -> series_of s r = Some f -> series_of s r' = Some g -> made s (h_add N E e_1 sym_eqb pos_eqb round r r' s) (series_add N E sym_eqb e_1 pos_eqb f g).
Proof.
  intros s r r' f g I Hf Hg. apply object_ok in Hf as (o & Ho & <-). apply object_ok in Hg as (o' & Ho' & <-). unfold h_add, series_add, sbind at 1, object_at, py_get. rewrite Ho. unfold sbind at 1. rewrite Ho'. unfold sbind at 1, lift at 1. cbn [look_at s_coeffs s_pos s_set s_factor].
  destruct (require (pos_eqb (o_pos o) (o_pos o') && iset_eqb (o_set o) (o_set o') && func_eqb E sym_eqb (o_factor o) (o_factor o')) "ValueError") as [[]| | | |]; fails. unfold sbind at 1, values. unfold sbind at 1. unfold sbind at 1, lift.
  destruct (np_add N (read s (o_coeffs o)) (read s (o_coeffs o'))) as [l| | | |]; fails. apply compute_made. exact I.
Qed.
Lemma map_made : forall h s r f, inv s -> series_of s r = Some f -> made s (h_map N E e_1 round h r s) (series_init N E e_1 (map h (s_coeffs f)) (s_pos f) (Some (s_factor f)) (s_set f)).
Proof. intros h s r f I Hf. apply object_ok in Hf as (o & Ho & <-). unfold h_map, sbind at 1, object_at, py_get. rewrite Ho. unfold sbind at 1, values. apply compute_made. exact I. Qed.
Lemma sub_made : forall s r r' f g, inv s -> series_of s r = Some f -> series_of s r' = Some g -> made s (h_sub N E e_1 sym_eqb pos_eqb round r r' s) (series_sub N E sym_eqb e_1 pos_eqb f g).
Proof.
  intros s r r' f g I Hf Hg. unfold h_sub, series_sub, h_scale, series_scale. unfold sbind at 1. destruct (map_made (fun y => nmul y (nopp n1)) s r' g I Hg) as (I1 & G1 & A1 & F1). destruct (h_map N E e_1 round (fun y => nmul y (nopp n1)) r' s) as [s1 o1]. cbn [fst snd] in *.
  destruct (series_init N E e_1 (map (fun y => nmul y (nopp n1)) (s_coeffs g)) (s_pos g) (Some (s_factor g)) (s_set g)) as [h| | | |]; cbn [bind agrees snd fst] in *; try (subst o1; apply made_fail'; [exact I1|exact G1|reflexivity]).
  destruct A1 as (k & -> & Hk). assert (Hf1 : series_of s1 r = Some f). { apply object_ok in Hf as (o & Ho & <-). unfold series_of. rewrite (grows_obj _ _ _ _ G1 Ho). cbn [option_map]. f_equal. unfold look_at. rewrite (grows_read _ _ _ G1); [reflexivity|]. destruct I as [_ I]. apply (I o). eapply nth_error_In. exact Ho. }
  destruct (add_made s1 r k f h I1 Hf1 Hk) as (I2 & G2 & A2 & F2). split; [exact I2|split; [exact (grows_trans _ _ _ G1 G2)|split; [exact A2|]]]. intros q Hq. destruct (F2 q Hq) as (o & H1 & H2 & H3). exists o. pose proof (grows_bufs _ _ G1). split; [exact H1|split; lia].
Qed.
Lemma to_cross_made : forall s r degree f, inv s -> series_of s r = Some f -> made s (h_to_cross N E e_1 round r degree s) (series_to_cross N E e_1 f degree).
Proof.
  intros s r degree f I Hf. apply object_ok in Hf as (o & Ho & <-). unfold h_to_cross, series_to_cross, sbind at 1, object_at, py_get at 1. rewrite Ho. cbn [look_at s_coeffs s_pos s_set s_factor s_degree].
  unfold sbind at 1, lift at 1. destruct (require (is_triangle (o_set o) && cross_guard (p_dim (o_pos o)) degree (o_degree o)) "ValueError") as [[]| | | |]; fails. unfold sbind at 1, lift at 1. destruct (cross_in_triangle (p_dim (o_pos o)) degree) as [inds| | | |]; fails.
  unfold sbind at 1, values. unfold sbind at 1, lift at 1. destruct (mapM (py_get (read s (o_coeffs o))) inds) as [l| | | |]; fails. apply compute_made. exact I.
Qed.
Lemma project_made : forall s r directions f, inv s -> series_of s r = Some f -> made s (h_project N far E e_mul e_1 add_args mul_args free_vars round r directions s) (series_project N far E e_mul e_1 add_args mul_args free_vars f directions).
Proof.
  intros s r directions f I Hf. apply object_ok in Hf as (o & Ho & <-). unfold h_project, series_project, sbind at 1, object_at, py_get at 1. rewrite Ho. cbn [look_at s_coeffs s_pos s_set s_factor s_degree].
  unfold sbind at 1, lift at 1. destruct (mapM (py_index (p_dirs (o_pos o))) directions) as [rel| | | |]; fails. unfold sbind at 1, values. unfold sbind at 1, lift at 1. destruct (project_vec N (o_set o) (read s (o_coeffs o)) (p_dim (o_pos o)) rel) as [l| | | |]; fails.
  assert (Fl : forall x : res nat, forall p : res (series N E), match p with Ok _ => False | Ub => x = Ub | Exit c => x = Exit c | Throw e => x = Throw e | NoFuel => x = NoFuel end -> made s (with_bufs s [l], x) p) by (intros x p Hx; apply made_fail'; [apply with_inv; exact I|apply with_grows|exact Hx]).
  unfold sbind at 1, alloc at 1. fold (with_bufs s [l]). unfold sbind at 1, lift at 1. destruct (pos_project N far (o_pos o) directions) as [p_pos| | | |]; cbn [bind]; try (apply Fl; reflexivity). unfold sbind at 1, lift at 1. destruct (fun_project E e_mul e_1 add_args mul_args free_vars (o_factor o) directions) as [factor| | | |]; cbn [bind]; try (apply Fl; reflexivity).
  exact (compute_made s l p_pos (Some factor) (o_set o) I).
Qed.
Lemma lift_eq : forall A (p : res A) (k : A -> st nat) s, sbind N E (lift N E p) k s = match p with Ok x => k x s | Ub => (s, Ub) | Exit c => (s, Exit c) | Throw e => (s, Throw e) | NoFuel => (s, NoFuel) end.
Proof. intros A p k s. destruct p; reflexivity. Qed.
Lemma object_eq : forall r (k : object N E -> st nat) s o, nth_error (objs s) r = Some o -> sbind N E (object_at N E r) k s = k o s.
Proof. intros r k s o H. unfold sbind, object_at, py_get. rewrite H. reflexivity. Qed.
Lemma values_eq : forall a (k : list N -> st nat) s, sbind N E (values N E a) k s = k (read s a) s.
Proof. reflexivity. Qed.
Lemma alloc_eq : forall l (k : array -> st nat) s, sbind N E (alloc N E l) k s = k (fresh s l) (with_bufs s [l]).
Proof. reflexivity. Qed.
Lemma tensorize2_made : forall s r r' f g, inv s -> series_of s r = Some f -> series_of s r' = Some g ->
  made s (h_tensorize2 N far E e_mul e_div e_1 add_args mul_args free_vars sym_eqb round r r' s) (series_tensorize2 N far E e_mul e_div e_1 add_args mul_args free_vars sym_eqb f g).
Proof.
  intros s r r' f g I Hf Hg. apply object_ok in Hf as (o & Ho & <-). apply object_ok in Hg as (o' & Ho' & <-). unfold h_tensorize2, series_tensorize2. rewrite (object_eq r _ s o Ho), (object_eq r' _ s o' Ho'), !values_eq. cbn [look_at s_coeffs s_pos s_set s_factor s_degree].
  destruct (p_dim (o_pos o) =? 0); [rewrite lift_eq; destruct (py_get (read s (o_coeffs o)) 0) as [x| | | |]; fails; apply compute_made; exact I|].
  destruct (p_dim (o_pos o') =? 0); [rewrite lift_eq; destruct (py_get (read s (o_coeffs o')) 0) as [x| | | |]; fails; apply compute_made; exact I|].
  cbv zeta. generalize (py_sorted (filter (fun d : nat => py_in d (p_dirs (o_pos o'))) (p_dirs (o_pos o)))) as common. intros common.
  rewrite lift_eq. destruct (fun_project E e_mul e_1 add_args mul_args free_vars (o_factor o) common) as [f1| | | |]; fails. rewrite lift_eq. destruct (fun_project E e_mul e_1 add_args mul_args free_vars (o_factor o') common) as [f2| | | |]; fails.
  rewrite lift_eq. destruct (require (func_eqb E sym_eqb f1 f2) "ValueError") as [[]| | | |]; fails. rewrite lift_eq. destruct (require (o_degree o =? o_degree o') "ValueError") as [[]| | | |]; fails. rewrite lift_eq. destruct (require (iset_eqb (o_set o) (o_set o')) "ValueError") as [[]| | | |]; fails.
  rewrite lift_eq. destruct (inner N (o_set o) (read s (o_coeffs o)) (read s (o_coeffs o')) (p_dirs (o_pos o)) (p_dirs (o_pos o'))) as [l| | | |]; fails.
  assert (Fl : forall x : res nat, forall p : res (series N E), match p with Ok _ => False | Ub => x = Ub | Exit c => x = Exit c | Throw e => x = Throw e | NoFuel => x = NoFuel end -> made s (with_bufs s [l], x) p) by (intros x p Hx; apply made_fail'; [apply with_inv; exact I|apply with_grows|exact Hx]).
  rewrite alloc_eq, lift_eq. destruct (pos_tensorize N far [o_pos o; o_pos o']) as [p_pos| | | |]; cbn [bind]; try (apply Fl; reflexivity). rewrite lift_eq. destruct (function_init E free_vars (e_mul (e_div (f_sym (o_factor o)) (f_sym f1)) (e_div (f_sym (o_factor o')) (f_sym f2))) (p_dirs p_pos)) as [factor| | | |]; cbn [bind]; try (apply Fl; reflexivity).
  rewrite <- (alloc_eq l (fun c => new_series c p_pos (Some factor) (o_set o) 0)). apply compute_made. exact I.
Qed.

Lemma keep_series : forall s s' r f, inv s -> grows s s' -> series_of s r = Some f -> series_of s' r = Some f.
Proof.
  intros s s' r f [_ I] G Hf. apply object_ok in Hf as (o & Ho & <-). unfold series_of. rewrite (grows_obj _ _ _ _ G Ho). cbn [option_map]. f_equal. unfold look_at. rewrite (grows_read _ _ _ G); [reflexivity|]. apply (I o). eapply nth_error_In. exact Ho.
Qed.
Notation tensorize2 := (series_tensorize2 N far E e_mul e_div e_1 add_args mul_args free_vars sym_eqb).
Notation h_loop := (h_tensorize_loop N far E e_mul e_div e_1 add_args mul_args free_vars sym_eqb round).
Lemma loop_made : forall rs fs s r f, inv s -> series_of s r = Some f -> Forall2 (fun r f => series_of s r = Some f) rs fs ->
  inv (fst (h_loop rs r s)) /\ grows s (fst (h_loop rs r s)) /\ agrees (h_loop rs r s) (for_in (fun a result => tensorize2 result a) fs f) /\
  forall q, snd (h_loop rs r s) = Ok q -> (rs = [] /\ q = r) \/ exists o, nth_error (objs (fst (h_loop rs r s))) q = Some o /\ length (objs s) <= q /\ length (bufs s) <= a_buf (o_coeffs o).
Proof.
  induction rs as [|r1 rs IH]; intros fs s r f I Hf H; inversion H; subst; cbn [h_tensorize_loop for_in].
  - cbn [ret fst snd]. split; [exact I|split; [apply grows_refl|split; [exists r; split; [reflexivity|exact Hf]|]]]. intros q [= <-]. left. split; reflexivity.
  - match goal with H1 : series_of s r1 = Some ?g |- _ => pose proof (tensorize2_made s r r1 f g I Hf H1) as M end. destruct M as (I1 & G1 & A1 & F1). unfold sbind. destruct (h_tensorize2 N far E e_mul e_div e_1 add_args mul_args free_vars sym_eqb round r r1 s) as [s1 o1]. cbn [fst snd] in *.
    match type of A1 with agrees _ ?p => destruct p as [h| | | |] end; cbn [bind agrees fst snd] in *; try (subst o1; cbn [fst snd]; split; [exact I1|split; [exact G1|split; [reflexivity|intros q Hq; discriminate Hq]]]).
    destruct A1 as (k & -> & Hk). match goal with H2 : Forall2 _ rs ?l |- _ => destruct (IH l s1 k h I1 Hk) as (I2 & G2 & A2 & F2) end.
    { eapply f2_impl; [|eassumption]. intros a b Hab. exact (keep_series _ _ _ _ I G1 Hab). }
    split; [exact I2|split; [exact (grows_trans _ _ _ G1 G2)|split; [exact A2|]]]. intros q Hq. right. destruct (F2 q Hq) as [(E1 & ->)|(o & H1 & H2' & H3)].
    + destruct (F1 k eq_refl) as (o & O1 & O2 & O3). exists o. split; [exact (grows_obj _ _ _ _ G2 O1)|split; assumption].
    + exists o. pose proof (grows_bufs _ _ G1). split; [exact H1|split; lia].
Qed.
Lemma subdegree_up : forall s r o degree, inv s -> nth_error (objs s) r = Some o -> o_degree o < degree -> made s (h_subdegree N E e_1 round r degree s) (series_subdegree N E e_1 (look_at s o) degree).
Proof.
  intros s r o degree I Ho Hd. unfold h_subdegree, series_subdegree. rewrite (object_eq r _ s o Ho). cbn [look_at s_coeffs s_pos s_set s_factor s_degree]. rewrite lift_eq. destruct (require (negb (is_cross_nc (o_set o))) "ValueError") as [[]| | | |]; fails. rewrite lift_eq. destruct (py_size (p_dim (o_pos o)) degree (o_set o)) as [n| | | |]; fails.
  cbv zeta. destruct (Nat.leb_spec degree (o_degree o)); [lia|]. rewrite read_length. unfold sbind at 1. unfold sbind at 1, lift at 1. destruct (require (a_len (o_coeffs o) <=? n) "ValueError") as [[]| | | |]; fails. exact (compute_made s _ (o_pos o) (Some (o_factor o)) (o_set o) I).
Qed.
Definition cut (a : array) (n : nat) : array := Arr (a_buf a) (a_off a) (a_step a) (Nat.min n (a_len a)).
Lemma cut_view : forall s a n, view_ok s a -> view_ok s (cut a n).
Proof. intros s a n (H1 & H2 & H3). split; [exact H1|split; [exact H2|]]. intros i Hi. cbn in *. apply H3. lia. Qed.
Lemma cut_contiguous : forall a n, contiguous a = true -> contiguous (cut a n) = true.
Proof. intros a n H. unfold contiguous in *. cbn [cut a_len a_step]. apply orb_true_iff in H as [H|H]; [|rewrite H; apply orb_true_r]. apply Nat.leb_le in H. replace (Nat.min n (a_len a) <=? 1) with true by (symmetry; apply Nat.leb_le; lia). reflexivity. Qed.
Lemma cut_read : forall (s : state) a n, read s (cut a n) = firstn n (read s a).
Proof.
  intros s a n. unfold read. cbn [cut a_len a_buf]. rewrite firstn_map. replace (firstn n (seq 0 (a_len a))) with (seq 0 (Nat.min n (a_len a))); [reflexivity|]. generalize 0 as k. generalize (a_len a) as m. induction n as [|n IH]; intros m k; [reflexivity|]. destruct m; [reflexivity|]. cbn [Nat.min seq firstn]. rewrite IH. reflexivity.
Qed.
Lemma subdegree_down : forall s r o degree, inv s -> nth_error (objs s) r = Some o -> degree <= o_degree o ->
  inv (fst (h_subdegree N E e_1 round r degree s)) /\ grows s (fst (h_subdegree N E e_1 round r degree s)) /\ agrees (h_subdegree N E e_1 round r degree s) (series_subdegree N E e_1 (look_at s o) degree) /\
  forall q, snd (h_subdegree N E e_1 round r degree s) = Ok q -> length (objs s) <= q /\ exists o' n, nth_error (objs (fst (h_subdegree N E e_1 round r degree s))) q = Some o' /\ o_coeffs o' = cut (o_coeffs o) n /\ bufs (fst (h_subdegree N E e_1 round r degree s)) = bufs s.
Proof.
  intros s r o degree I Ho Hd. unfold h_subdegree, series_subdegree. rewrite (object_eq r _ s o Ho). cbn [look_at s_coeffs s_pos s_set s_factor s_degree].
  assert (T : forall (p : res (series N E)) (x : res nat), match p with Ok _ => False | Ub => x = Ub | Exit c => x = Exit c | Throw e => x = Throw e | NoFuel => x = NoFuel end -> inv (fst (s, x)) /\ grows s (fst (s, x)) /\ agrees (s, x) p /\ forall q, snd (s, x) = Ok q -> length (objs s) <= q /\ exists o' n, nth_error (objs (fst (s, x))) q = Some o' /\ o_coeffs o' = cut (o_coeffs o) n /\ bufs (fst (s, x)) = bufs s).
  { intros p x H. cbn [fst snd]. split; [exact I|split; [apply grows_refl|]]. destruct p; [contradiction H| | | |]; subst x; (split; [reflexivity|intros q Hq; discriminate Hq]). }
  rewrite lift_eq. destruct (require (negb (is_cross_nc (o_set o))) "ValueError") as [[]| | | |]; cbn [bind]; try (apply T; reflexivity). rewrite lift_eq. destruct (py_size (p_dim (o_pos o)) degree (o_set o)) as [n| | | |]; cbn [bind]; try (apply T; reflexivity).
  cbv zeta. destruct (Nat.leb_spec degree (o_degree o)); [|lia]. cbn [bind]. fold (cut (o_coeffs o) n). rewrite <- cut_read. destruct I as [Ia Io]. destruct (Io o) as (V & C); [eapply nth_error_In; exact Ho|]. unfold sbind at 1 2 3 4 5 6, ret. rewrite new_eval, (cut_contiguous _ _ C).
  destruct (series_init N E e_1 (read s (cut (o_coeffs o) n)) (o_pos o) (Some (o_factor o)) (o_set o)) as [f| | | |] eqn:Ef; cbn [as_nat]; try (apply T; reflexivity).
  set (o' := Obj (cut (o_coeffs o) n) (o_pos o) (o_set o) (s_degree f) (s_factor f)). cbn [fst snd]. split; [apply with_obj_inv; [split; assumption|apply cut_view; exact V|apply cut_contiguous; exact C]|]. split; [apply with_obj_grows|]. split.
  - exists (length (objs s)). split; [reflexivity|]. unfold series_of. cbn [fst]. rewrite with_obj_last. cbn [option_map]. f_equal. unfold look_at. cbn [o_coeffs o_pos o_set o_degree o_factor o']. rewrite (grows_read s) by (try apply with_obj_grows; apply cut_view; exact V).
    rewrite init_split in Ef. destruct (init_degree N (length (read s (cut (o_coeffs o) n))) (o_pos o) (o_set o)); cbn [bind] in Ef; try discriminate Ef. cbn [factor_init bind] in Ef. injection Ef as <-. reflexivity.
  - intros q [= <-]. split; [lia|]. exists o', n. split; [apply with_obj_last|split; reflexivity].
Qed.

(** Writing to an array. *)
Lemma cell_inj : forall s a i j, view_ok s a -> i < a_len a -> j < a_len a -> cell a i = cell a j -> i = j.
Proof. intros s a i j (_ & H2 & H3) Hi Hj H. unfold cell in H. pose proof (H3 i Hi). pose proof (H3 j Hj). assert (Z.of_nat (a_off a) + Z.of_nat i * a_step a = Z.of_nat (a_off a) + Z.of_nat j * a_step a)%Z by lia. assert ((Z.of_nat i - Z.of_nat j) * a_step a = 0)%Z by lia. apply Z.mul_eq_0 in H5. lia. Qed.
Definition written (s : state) (b : array) (i : nat) (x : N) : state := St (upd (bufs s) (a_buf b) (upd (nth (a_buf b) (bufs s) []) (cell b i) x)) (arrs s) (objs s).
Lemma written_buf : forall s b i x k, view_ok s b -> nth k (bufs (written s b i x)) [] = if k =? a_buf b then upd (nth (a_buf b) (bufs s) []) (cell b i) x else nth k (bufs s) [].
Proof. intros s b i x k (H1 & _). cbn [written bufs]. rewrite nth_upd. destruct (Nat.ltb_spec (a_buf b) (length (bufs s))); [|lia]. rewrite andb_true_r. reflexivity. Qed.
Lemma written_view : forall s b i x a, view_ok s b -> view_ok s a -> view_ok (written s b i x) a.
Proof.
  intros s b i x a Hb (H1 & H2 & H3). split; [cbn; rewrite upd_length; exact H1|split; [exact H2|]]. intros j Hj. rewrite written_buf by exact Hb. destruct (Nat.eqb_spec (a_buf a) (a_buf b)) as [B|B]; [|apply H3; exact Hj]. rewrite upd_length, <- B. apply H3. exact Hj.
Qed.
Lemma cell_bound : forall s a i, view_ok s a -> i < a_len a -> cell a i < length (nth (a_buf a) (bufs s) []).
Proof. intros s a i (_ & _ & H) Hi. specialize (H i Hi). unfold cell. lia. Qed.
Lemma written_read : forall s b i x a j, view_ok s b -> i < a_len b -> view_ok s a -> j < a_len a ->
  nth_error (read (written s b i x) a) j = if (a_buf a =? a_buf b) && (cell a j =? cell b i) then Some x else nth_error (read s a) j.
Proof.
  intros s b i x a j Hb Hi Ha Hj. unfold read. rewrite !nth_error_map. rewrite (nth_error_nth' (seq 0 (a_len a)) 0) by (rewrite seq_length; exact Hj). rewrite seq_nth by exact Hj. cbn [option_map Nat.add]. rewrite written_buf by exact Hb. destruct (Nat.eqb_spec (a_buf a) (a_buf b)) as [B|B]; cbn [andb]; [|reflexivity]. rewrite nth_upd, B.
  pose proof (cell_bound s b i Hb Hi) as L. destruct (Nat.ltb_spec (cell b i) (length (nth (a_buf b) (bufs s) []))); [|lia]. rewrite andb_true_r. destruct (cell a j =? cell b i); reflexivity.
Qed.
Lemma read_ext : forall (s s' : state) a a', a_len a = a_len a' -> (forall j, j < a_len a -> nth_error (read s a) j = nth_error (read s' a') j) -> read s a = read s' a'.
Proof.
  intros s s' a a' L H. assert (G : forall (l l' : list N), length l = length l' -> (forall j, j < length l -> nth_error l j = nth_error l' j) -> l = l').
  { induction l as [|y l IH]; intros [|y' l'] HL HJ; try discriminate HL; [reflexivity|]. f_equal; [specialize (HJ 0 ltac:(cbn; lia)); injection HJ as ->; reflexivity|]. apply IH; [cbn in HL; lia|]. intros j Hj. apply (HJ (S j)). cbn. lia. }
  apply G; rewrite !read_length; [exact L|]. intros j Hj. apply H. exact Hj.
Qed.
Lemma written_apart : forall s b i x a, view_ok s b -> i < a_len b -> view_ok s a -> apart b a -> read (written s b i x) a = read s a.
Proof.
  intros s b i x a Hb Hi Ha D. apply read_ext; [reflexivity|]. intros j Hj. rewrite written_read by assumption. destruct (Nat.eqb_spec (a_buf a) (a_buf b)) as [B|B]; cbn [andb]; [|reflexivity]. destruct (Nat.eqb_spec (cell a j) (cell b i)) as [K|K]; [|reflexivity]. exfalso. destruct D as [D|D]; [congruence|]. apply (D i j Hi Hj). symmetry. exact K.
Qed.
Lemma written_inv : forall s b i x, view_ok s b -> inv s -> inv (written s b i x).
Proof. intros s b i x Hb (I1 & I2). split; [intros a Ha; apply written_view; [exact Hb|apply I1; exact Ha]|]. intros o Ho. destruct (I2 o Ho) as [V C]. split; [apply written_view; assumption|exact C]. Qed.

(** Rounding in place. *)
Lemma round_eval : forall k a is s, view_ok s a -> NoDup is -> Forall (fun i => i < a_len a) is -> inv s ->
  exists s', round_loop N E round k a is s = (s', Ok tt) /\ inv s' /\ arrs s' = arrs s /\ objs s' = objs s /\ length (bufs s') = length (bufs s) /\
  (forall b, view_ok s b -> view_ok s' b) /\ (forall b, view_ok s b -> apart a b -> read s' b = read s b) /\
  forall j, j < a_len a -> nth_error (read s' a) j = if in_dec Nat.eq_dec j is then option_map (round k) (nth_error (read s a) j) else nth_error (read s a) j.
Proof.
  intros k a. induction is as [|i is IH]; intros s V ND F I.
  - exists s. split; [reflexivity|]. split; [exact I|]. split; [reflexivity|split; [reflexivity|split; [reflexivity|split; [auto|split; [auto|]]]]]. intros j _. destruct (in_dec Nat.eq_dec j []) as [[]|_]; reflexivity.
  - inversion ND as [|? ? Ni ND']; subst. inversion F as [|? ? Hi F']; subst. cbn [round_loop]. set (x := round k (nth i (read s a) n0)). assert (Es : set_item N E a i x s = (written s a i x, Ok tt)) by (unfold set_item; destruct (Nat.ltb_spec i (a_len a)); [reflexivity|lia]). unfold sbind. rewrite Es.
    destruct (IH (written s a i x)) as (s' & E1 & I' & A1 & O1 & L1 & W1 & P1 & R1); [apply written_view; assumption|exact ND'|exact F'|apply written_inv; assumption|].
    exists s'. split; [exact E1|split; [exact I'|split; [exact A1|split; [exact O1|split; [rewrite L1; cbn; apply upd_length|]]]]]. split; [intros b Hb; apply W1; apply written_view; assumption|]. split.
    + intros b Hb D. rewrite P1 by (try apply written_view; assumption). apply written_apart; assumption.
    + intros j Hj. rewrite R1 by exact Hj. rewrite written_read by assumption. rewrite Nat.eqb_refl. cbn [andb]. destruct (Nat.eqb_spec (cell a j) (cell a i)) as [K|K].
      * assert (j = i) by (apply (cell_inj s a); assumption). subst j. destruct (in_dec Nat.eq_dec i is) as [Q|_]; [contradiction|]. destruct (in_dec Nat.eq_dec i (i :: is)) as [_|Q]; [|exfalso; apply Q; left; reflexivity]. unfold x. rewrite (nth_error_nth' (read s a) n0) by (rewrite read_length; exact Hi). reflexivity.
      * assert (j <> i) by (intros ->; apply K; reflexivity). destruct (in_dec Nat.eq_dec j is) as [Q|Q], (in_dec Nat.eq_dec j (i :: is)) as [Q'|Q']; try reflexivity; exfalso; [apply Q'; right; exact Q|]. destruct Q' as [Q'|Q']; [congruence|contradiction].
Qed.
Lemma round_all : forall k a s, view_ok s a -> inv s ->
  exists s', round_loop N E round k a (seq 0 (a_len a)) s = (s', Ok tt) /\ inv s' /\ arrs s' = arrs s /\ objs s' = objs s /\ length (bufs s') = length (bufs s) /\
  (forall b, view_ok s b -> view_ok s' b) /\ (forall b, view_ok s b -> apart a b -> read s' b = read s b) /\ read s' a = map (round k) (read s a).
Proof.
  intros k a s V I. destruct (round_eval k a (seq 0 (a_len a)) s V (seq_NoDup _ _)) as (s' & E1 & I' & A1 & O1 & L1 & W1 & P1 & R1); [apply Forall_forall; intros i Hi; apply in_seq in Hi; lia|exact I|]. exists s'. split; [exact E1|split; [exact I'|split; [exact A1|split; [exact O1|split; [exact L1|split; [exact W1|split; [exact P1|]]]]]]].
  assert (G : forall (l l' : list N), length l = length l' -> (forall j, j < length l -> nth_error l j = nth_error l' j) -> l = l').
  { induction l as [|y l IH]; intros [|y' l'] HL HJ; try discriminate HL; [reflexivity|]. f_equal; [specialize (HJ 0 ltac:(cbn; lia)); injection HJ as ->; reflexivity|]. apply IH; [cbn in HL; lia|]. intros j Hj. apply (HJ (S j)). cbn. lia. }
  apply G; [rewrite map_length, !read_length; reflexivity|]. intros j Hj. rewrite read_length in Hj. rewrite R1, nth_error_map by exact Hj. destruct (in_dec Nat.eq_dec j (seq 0 (a_len a))) as [_|Q]; [reflexivity|]. exfalso. apply Q. apply in_seq. lia.
Qed.
End Heap.
