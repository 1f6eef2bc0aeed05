(** Proofs for C106: sharing. *)
From Coq Require Import String List Bool Arith ZArith Lia.
From Verif Require Import Base Lists IndexModel Num LinModel PyBase PosModel SeriesModel PartModel SplitModel MulModel ProjModel SolveModel HeapModel HeapSpec HeapFacts HeapFacts2.
Import ListNotations.
Local Open Scope string_scope. Local Open Scope list_scope. Local Open Scope nat_scope.

Section Heap.
Variable N : num.
Variable far : list (list N) -> bool.
Variable E : Type.
Variable e_mul e_div : E -> E -> E.
Variable e_1 : E.
Variables add_args mul_args : E -> list E.
Variable free_vars : E -> list nat.
Variable sym_eqb : E -> E -> bool.
Variable pos_eqb : position N -> position N -> bool.
Variable ndiv : N -> N -> N.
Variable round : nat -> N -> N.
Variable real : N -> N.
Variable is_complex : list N -> bool.
Notation state := (state N E).
Notation st A := (HeapModel.st N E A).
Notation exec := (exec N far E e_mul e_div e_1 add_args mul_args free_vars sym_eqb pos_eqb ndiv round real is_complex).
Notation run := (run N far E e_mul e_div e_1 add_args mul_args free_vars sym_eqb pos_eqb ndiv round real is_complex).
Notation inv := (inv N E).
Notation view_ok := (view_ok N E).
Notation grows := (grows N E).
Notation made := (made N E).
Notation start := (@start N E).

Lemma known_view : forall s a, inv s -> known s a -> view_ok s a.
Proof. intros s a (I1 & I2) [H|(o & Ho & <-)]; [apply I1; exact H|apply (I2 o Ho)]. Qed.
Lemma fresh_apart : forall (s : state) a b, view_ok s a -> length (bufs s) <= a_buf b -> apart a b.
Proof. intros s a b (H & _) L. left. lia. Qed.

(** The calls that compute. *)
Lemma computes_fresh : forall s c s' r, inv s -> computes s c -> exec c s = (s', Ok r) -> length (objs s) <= r /\ exists o, nth_error (objs s') r = Some o /\ length (bufs s) <= a_buf (o_coeffs o).
Proof.
  intros s c s' r I H Ex. assert (M : forall p out, made s out p -> out = (s', Ok r) -> length (objs s) <= r /\ exists o, nth_error (objs s') r = Some o /\ length (bufs s) <= a_buf (o_coeffs o)).
  { intros p out (_ & _ & _ & F) ->. destruct (F r eq_refl) as (o & H1 & H2 & H3). split; [exact H2|exists o; split; assumption]. }
  destruct c as [l|a start len step|r0|a i x|a pos factor set k|r0 r'|r0 x|r0 x|r0 x|r0 r'|r0 degree|r0 degree|r0 ds|rs|r0]; cbn [computes] in H; try contradiction H; cbn [HeapModel.exec] in Ex.
  - destruct (known_or N E s r0) as [(f & Hf)|K]; [|unfold h_add in Ex; rewrite no_object in Ex by exact K; discriminate Ex]. destruct (known_or N E s r') as [(g & Hg)|K]; [|unfold h_add in Ex; rewrite no_object2 in Ex by exact K; discriminate Ex]. exact (M _ _ (add_made N E e_1 sym_eqb pos_eqb round s r0 r' f g I Hf Hg) Ex).
  - destruct (known_or N E s r0) as [(f & Hf)|K]; [|unfold h_add_num, h_map in Ex; rewrite no_object in Ex by exact K; discriminate Ex]. exact (M _ _ (map_made N E e_1 round _ s r0 f I Hf) Ex).
  - destruct (known_or N E s r0) as [(f & Hf)|K]; [|unfold h_scale, h_map in Ex; rewrite no_object in Ex by exact K; discriminate Ex]. exact (M _ _ (map_made N E e_1 round _ s r0 f I Hf) Ex).
  - destruct (known_or N E s r0) as [(f & Hf)|K]; [|unfold h_div, h_map in Ex; rewrite no_object in Ex by exact K; discriminate Ex]. exact (M _ _ (map_made N E e_1 round _ s r0 f I Hf) Ex).
  - unfold h_sub, sbind, h_scale in Ex. destruct (map_safe N E e_1 round (fun y => nmul y (nopp n1)) s r' I) as (I1 & G1). destruct (h_map N E e_1 round (fun y => nmul y (nopp n1)) r' s) as [s1 [h| | | |]] eqn:Em; try discriminate Ex. cbn [fst] in *.
    destruct (known_or N E s1 r0) as [(f & Hf)|K]; [|unfold h_add in Ex; rewrite no_object in Ex by exact K; discriminate Ex]. destruct (known_or N E s1 h) as [(g & Hg)|K]; [|unfold h_add in Ex; rewrite no_object2 in Ex by exact K; discriminate Ex].
    destruct (add_made N E e_1 sym_eqb pos_eqb round s1 r0 h f g I1 Hf Hg) as (_ & _ & _ & F). rewrite Ex in F. destruct (F r eq_refl) as (o & H1 & H2 & H3). pose proof (grows_bufs N E _ _ G1). split; [lia|]. exists o. split; [exact H1|lia].
  - destruct H as (o & Ho & D). exact (M _ _ (subdegree_up N E e_1 round s r0 o degree I Ho D) Ex).
  - destruct (known_or N E s r0) as [(f & Hf)|K]; [|unfold h_to_cross in Ex; rewrite no_object in Ex by exact K; discriminate Ex]. exact (M _ _ (to_cross_made N E e_1 round s r0 degree f I Hf) Ex).
  - destruct (known_or N E s r0) as [(f & Hf)|K]; [|unfold h_project in Ex; rewrite no_object in Ex by exact K; discriminate Ex]. exact (M _ _ (project_made N far E e_mul e_1 add_args mul_args free_vars round s r0 ds f I Hf) Ex).
  - destruct rs as [|r1 [|r2 rs]]; try contradiction H. cbn [h_tensorize h_tensorize_loop] in Ex. unfold sbind in Ex. destruct (known_or N E s r1) as [(f & Hf)|K]; [|unfold h_tensorize2 in Ex; rewrite no_object in Ex by exact K; discriminate Ex]. destruct (known_or N E s r2) as [(g & Hg)|K]; [|unfold h_tensorize2 in Ex; rewrite no_object2 in Ex by exact K; discriminate Ex].
    destruct (tensorize2_made N far E e_mul e_div e_1 add_args mul_args free_vars sym_eqb round s r1 r2 f g I Hf Hg) as (I1 & G1 & _ & F). destruct (h_tensorize2 N far E e_mul e_div e_1 add_args mul_args free_vars sym_eqb round r1 r2 s) as [s1 [k| | | |]]; try discriminate Ex. cbn [fst snd] in *. destruct (F k eq_refl) as (o & K1 & K2 & K3). clear F M H.
    assert (Q : length (objs s) <= k /\ exists o, nth_error (objs s1) k = Some o /\ length (bufs s) <= a_buf (o_coeffs o)) by (split; [exact K2|exists o; split; assumption]). clear K1 K2 K3 o f g Hf Hg. revert s1 k I1 G1 Q Ex. induction rs as [|r3 rs IH]; intros s1 k I1 G1 Q Ex; cbn [h_tensorize_loop] in Ex; [injection Ex as <- <-; exact Q|].
    unfold sbind in Ex. destruct (known_or N E s1 k) as [(f & Hf)|K]; [|unfold h_tensorize2 in Ex; rewrite no_object in Ex by exact K; discriminate Ex]. destruct (known_or N E s1 r3) as [(g & Hg)|K]; [|unfold h_tensorize2 in Ex; rewrite no_object2 in Ex by exact K; discriminate Ex].
    destruct (tensorize2_made N far E e_mul e_div e_1 add_args mul_args free_vars sym_eqb round s1 k r3 f g I1 Hf Hg) as (I2 & G2 & _ & F). destruct (h_tensorize2 N far E e_mul e_div e_1 add_args mul_args free_vars sym_eqb round k r3 s1) as [s2 [k2| | | |]]; try discriminate Ex. cbn [fst snd] in *. destruct (F k2 eq_refl) as (o & K1 & K2 & K3). pose proof (grows_bufs N E _ _ G1).
    apply (IH s2 k2 I2 (grows_trans N E _ _ _ G1 G2)); [|exact Ex]. split; [lia|]. exists o. split; [exact K1|lia].
Qed.
Lemma computes_apart : forall h c s' r, computes (run start h) c -> exec c (run start h) = (s', Ok r) -> length (objs (run start h)) <= r /\ exists o, nth_error (objs s') r = Some o /\ forall a, known (run start h) a -> apart a (o_coeffs o).
Proof.
  intros h c s' r H Ex. pose proof (reach_inv N far E e_mul e_div e_1 add_args mul_args free_vars sym_eqb pos_eqb ndiv round real is_complex h) as I. destruct (computes_fresh _ _ _ _ I H Ex) as (L & o & Ho & B). split; [exact L|]. exists o. split; [exact Ho|]. intros a Ha. apply (fresh_apart (run start h)); [|exact B]. apply known_view; assumption.
Qed.

(** Two arrays that begin at the same element. *)
Lemma set_eval : forall s k b i x, nth_error (arrs s) k = Some b -> i < a_len b -> exec (SetItem k i x) s = (written N E s b i x, Ok k).
Proof. intros s k b i x Hb Hi. cbn [HeapModel.exec]. unfold sbind, array_at, py_get. rewrite Hb. unfold set_item. destruct (Nat.ltb_spec i (a_len b)); [reflexivity|lia]. Qed.
Lemma set_same : forall s k b r o i x, inv s -> nth_error (arrs s) k = Some b -> nth_error (objs s) r = Some o -> a_buf (o_coeffs o) = a_buf b -> (forall j, cell (o_coeffs o) j = cell b j) -> i < a_len b -> i < a_len (o_coeffs o) ->
  exists f, series_of (fst (exec (SetItem k i x) s)) r = Some f /\ nth_error (s_coeffs f) i = Some x.
Proof.
  intros s k b r o i x I Hb Ho B C Hi Hi'. rewrite (set_eval s k b i x Hb Hi). cbn [fst]. unfold series_of. cbn [written objs]. rewrite Ho. eexists. split; [reflexivity|]. cbn [look_at s_coeffs]. fold (written N E s b i x). destruct I as [I1 I2].
  rewrite written_read; [|apply I1; eapply nth_error_In; exact Hb|exact Hi|apply (I2 o); eapply nth_error_In; exact Ho|exact Hi']. rewrite B, C, !Nat.eqb_refl. reflexivity.
Qed.
Lemma cut_cell : forall a n j, cell (cut a n) j = cell a j.
Proof. reflexivity. Qed.

Lemma shares : forall h r o degree s' q k b i x, nth_error (objs (run start h)) r = Some o -> degree <= o_degree o -> exec (Subdegree r degree) (run start h) = (s', Ok q) ->
  nth_error (arrs s') k = Some b -> ((exists o', nth_error (objs s') q = Some o' /\ b = o_coeffs o') \/ b = o_coeffs o) ->
  forall o', nth_error (objs s') q = Some o' -> i < a_len (o_coeffs o') ->
  (exists f, series_of (fst (exec (SetItem k i x) s')) r = Some f /\ nth_error (s_coeffs f) i = Some x) /\ (exists f, series_of (fst (exec (SetItem k i x) s')) q = Some f /\ nth_error (s_coeffs f) i = Some x).
Proof.
  intros h r o degree s' q k b i x Ho D Ex Hb Hor o' Ho' Hi. pose proof (reach_inv N far E e_mul e_div e_1 add_args mul_args free_vars sym_eqb pos_eqb ndiv round real is_complex h) as I. cbn [HeapModel.exec] in Ex. destruct (subdegree_down N E e_1 round _ r o degree I Ho D) as (I' & G & _ & F). rewrite Ex in *. cbn [fst snd] in *.
  destruct (F q eq_refl) as (_ & o2 & n & H1 & H2 & _). rewrite Ho' in H1. injection H1 as <-. pose proof (grows_obj N E _ _ _ _ G Ho) as Hr. assert (Hlen : i < a_len (o_coeffs o)) by (rewrite H2 in Hi; cbn in Hi; lia).
  assert (Bc : a_buf b = a_buf (o_coeffs o) /\ (forall j, cell b j = cell (o_coeffs o) j) /\ i < a_len b). { destruct Hor as [(o3 & K1 & ->)| ->]; [rewrite Ho' in K1; injection K1 as <-; rewrite H2; rewrite H2 in Hi; split; [reflexivity|split; [reflexivity|exact Hi]]|split; [reflexivity|split; [reflexivity|exact Hlen]]]. }
  destruct Bc as (B1 & B2 & B3). split.
  - apply (set_same s' k b r o i x I' Hb Hr); [congruence|intros j; rewrite B2; reflexivity|exact B3|exact Hlen].
  - apply (set_same s' k b q o' i x I' Hb Ho'); [rewrite H2; cbn; congruence|intros j; rewrite B2, H2; reflexivity|exact B3|exact Hi].
Qed.

(** The constructor. *)
Lemma new_agrees : forall s a b pos factor set, inv s -> nth_error (arrs s) a = Some b -> agrees (exec (NewSeries a pos factor set 0) s) (series_init N E e_1 (read s b) pos factor set) /\
  forall s' q, exec (NewSeries a pos factor set 0) s = (s', Ok q) -> inv s' /\ grows s s' /\ exists o, nth_error (objs s') q = Some o /\ length (objs s) <= q /\ a_len (o_coeffs o) = a_len b /\ if contiguous b then o_coeffs o = b else a_buf (o_coeffs o) = length (bufs s).
Proof.
  intros s a b pos factor set I Hb. assert (V : view_ok s b) by (destruct I as [I _]; apply I; eapply nth_error_In; exact Hb). pose proof (new_safe N E e_1 round s b pos factor set I V) as (I' & G). cbn [HeapModel.exec]. unfold sbind, array_at, py_get. rewrite Hb. rewrite new_eval in *. pose proof (init_split N E e_1 (read s b) pos factor set) as Hs.
  destruct (series_init N E e_1 (read s b) pos factor set) as [f| | | |]; cbn [as_nat] in *; try (split; [reflexivity|intros s' q Hq; discriminate Hq]).
  assert (Hf : f = Ser (read s b) pos set (s_degree f) (s_factor f)) by (destruct (init_degree N (length (read s b)) pos set); cbn [bind] in Hs; try discriminate Hs; destruct (factor_init E e_1 factor (p_dirs pos)); cbn [bind] in Hs; try discriminate Hs; injection Hs as ->; reflexivity). destruct (contiguous b) eqn:C; cbn [fst snd] in *.
  - split.
    + exists (length (objs s)). split; [reflexivity|]. unfold series_of. cbn [fst]. rewrite with_obj_last. cbn [option_map]. f_equal. unfold look_at. cbn [o_coeffs o_pos o_set o_degree o_factor]. rewrite (grows_read N E s) by assumption. symmetry. exact Hf.
    + intros s' q [= <- <-]. split; [exact I'|split; [exact G|]]. eexists. split; [apply with_obj_last|split; [lia|split; reflexivity]].
  - destruct (fresh_ok N E s (read s b)) as (V' & C' & R'). set (o := Obj (fresh N E s (read s b)) pos set (s_degree f) (s_factor f)) in *. pose proof (with_obj_last N E (with_bufs N E s [read s b]) o) as WL. change (length (objs (with_bufs N E s [read s b]))) with (length (objs s)) in WL. split.
    + exists (length (objs s)). split; [reflexivity|]. unfold series_of. cbn [fst]. rewrite WL. cbn [option_map]. f_equal. unfold look_at. cbn [o_coeffs o_pos o_set o_degree o_factor o]. rewrite (grows_read N E _ _ _ (with_obj_grows N E (with_bufs N E s [read s b]) o) V'), R'. symmetry. exact Hf.
    + intros s' q [= <- <-]. split; [exact I'|split; [exact G|]]. exists o. split; [exact WL|split; [lia|split; [cbn; apply read_length|reflexivity]]].
Qed.
Lemma new_shares : forall h a b pos factor set s' q i x, nth_error (arrs (run start h)) a = Some b -> exec (NewSeries a pos factor set 0) (run start h) = (s', Ok q) -> i < a_len b ->
  if contiguous b then exists f, series_of (fst (exec (SetItem a i x) s')) q = Some f /\ nth_error (s_coeffs f) i = Some x else series_of (fst (exec (SetItem a i x) s')) q = series_of s' q.
Proof.
  intros h a b pos factor set s' q i x Hb Ex Hi. pose proof (reach_inv N far E e_mul e_div e_1 add_args mul_args free_vars sym_eqb pos_eqb ndiv round real is_complex h) as I. destruct (new_agrees _ a b pos factor set I Hb) as (_ & F). destruct (F s' q Ex) as (I' & G & o & Ho & _ & L & C). pose proof (grows_arr N E _ _ _ _ G Hb) as Hb'. destruct (contiguous b).
  - apply (set_same s' a b q o i x I' Hb' Ho); try (rewrite C; reflexivity); [exact Hi|rewrite L; exact Hi].
  - destruct (step_exec N far E e_mul e_div e_1 add_args mul_args free_vars sym_eqb pos_eqb ndiv round real is_complex (SetItem a i x) s' I') as (_ & _ & R & _ & O & _). unfold series_of. rewrite (O q o Ho) by exact Logic.I. rewrite Ho. cbn [option_map]. f_equal. unfold look_at. rewrite R; [reflexivity|apply (proj2 I' o); eapply nth_error_In; exact Ho|]. cbn [leaves_array]. intros b' Hb2. rewrite Hb' in Hb2. injection Hb2 as <-. left. pose proof (proj1 I b (nth_error_In _ _ Hb)) as (V & _). lia.
Qed.
Lemma rounds : forall h a b pos factor set k d, nth_error (arrs (run start h)) a = Some b -> init_degree N (a_len b) pos set = Ok d ->
  array_of (fst (exec (NewSeries a pos factor set (S k)) (run start h))) a = Some (map (round (S k)) (read (run start h) b)) /\
  agrees (exec (NewSeries a pos factor set (S k)) (run start h)) (series_init N E e_1 (map (round (S k)) (read (run start h) b)) pos factor set).
Proof.
  intros h a b pos factor set k d Hb D. pose proof (reach_inv N far E e_mul e_div e_1 add_args mul_args free_vars sym_eqb pos_eqb ndiv round real is_complex h) as I. assert (V : view_ok (run start h) b) by (apply (proj1 I); eapply nth_error_In; exact Hb).
  destruct (round_all N E round (S k) b _ V I) as (s1 & E1 & I1 & A1 & O1 & _ & W1 & P1 & R1). assert (Hb1 : nth_error (arrs s1) a = Some b) by (rewrite A1; exact Hb).
  assert (X : exec (NewSeries a pos factor set (S k)) (run start h) = exec (NewSeries a pos factor set 0) s1). { cbn [HeapModel.exec]. unfold sbind at 1, array_at, py_get. rewrite Hb. rewrite (new_sig N E e_1 round _ _ _ _ _ _ _ E1), D. unfold sbind, array_at, py_get. rewrite Hb1. reflexivity. }
  rewrite X. destruct (new_agrees s1 a b pos factor set I1 Hb1) as (Ag & _). rewrite R1 in Ag. split; [|exact Ag]. destruct (harmless_safe N far E e_mul e_div e_1 add_args mul_args free_vars sym_eqb pos_eqb ndiv round real is_complex s1 (NewSeries a pos factor set 0) I1 eq_refl) as (_ & G). unfold array_of. rewrite (grows_arr N E _ _ _ _ G Hb1). cbn [option_map]. f_equal. rewrite (grows_read N E _ _ _ G (W1 b V)). exact R1.
Qed.
Lemma plots : forall h r f, series_of (run start h) r = Some f ->
  series_of (fst (exec (Plot r) (run start h))) r = Some (if is_complex (s_coeffs f) then Ser (map real (s_coeffs f)) (s_pos f) (s_set f) (s_degree f) (s_factor f) else f) /\
  (forall q, q <> r -> series_of (fst (exec (Plot r) (run start h))) q = series_of (run start h) q) /\ (forall k, array_of (fst (exec (Plot r) (run start h))) k = array_of (run start h) k).
Proof.
  intros h r f Hf. pose proof (reach_inv N far E e_mul e_div e_1 add_args mul_args free_vars sym_eqb pos_eqb ndiv round real is_complex h) as I. set (s := run start h) in *. clearbody s. apply object_ok in Hf as (o & Ho & <-). set (l := map real (read s (o_coeffs o))). assert (X : exec (Plot r) s = (if is_complex (read s (o_coeffs o)) then St (bufs s ++ [l]) (arrs s) (upd (objs s) r (Obj (fresh N E s l) (o_pos o) (o_set o) (o_degree o) (o_factor o))) else s, Ok r)).
  { cbn [HeapModel.exec]. unfold sbind, h_plot, sbind, object_at, py_get. rewrite Ho. unfold values. destruct (is_complex (read s (o_coeffs o))); reflexivity. }
  rewrite X. cbn [fst look_at s_coeffs s_pos s_set s_degree s_factor].
  destruct (is_complex (read s (o_coeffs o))); [|split; [unfold series_of; rewrite Ho; reflexivity|split; reflexivity]]. destruct (fresh_ok N E s l) as (V & C & R). pose proof (with_grows N E s [l]) as G. assert (Lr : r < length (objs s)) by (apply nth_error_Some; congruence).
  split; [|split].
  - unfold series_of. cbn [objs]. rewrite nth_error_upd, Nat.eqb_refl. destruct (Nat.ltb_spec r (length (objs s))); [|lia]. cbn [andb option_map]. f_equal. unfold look_at. cbn [o_coeffs o_pos o_set o_degree o_factor]. f_equal. exact R.
  - intros q Hq. unfold series_of. cbn [objs]. rewrite nth_error_upd. destruct (Nat.eqb_spec q r); [contradiction|]. cbn [andb]. destruct (nth_error (objs s) q) as [oq|] eqn:Eq; [|reflexivity]. cbn [option_map]. f_equal. unfold look_at. f_equal. exact (grows_read N E s _ (o_coeffs oq) G (proj1 (proj2 I oq (nth_error_In _ _ Eq)))).
  - intros k. unfold array_of. cbn [arrs]. destruct (nth_error (arrs s) k) as [b|] eqn:Eb; [|reflexivity]. cbn [option_map]. f_equal. exact (grows_read N E s _ b G (proj1 I b (nth_error_In _ _ Eb))).
Qed.
End Heap.
