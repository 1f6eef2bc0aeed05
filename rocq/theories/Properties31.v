(** C96: making a Function of an expression; C97: cleaning decimal coefficients. *)
From Coq Require Import String List Bool Arith ZArith Lia Sorted Reals Lra.
From Verif Require Import Base Num PyBase SeriesModel MulModel FnModel FnSpec FnFacts FnFacts2 FnSample.
Import ListNotations.
Local Open Scope string_scope. Local Open Scope list_scope. Local Open Scope nat_scope.

(** The function made of an expression has the value of the expression, whatever names the expression uses for the coordinates (x, y, z, w, v or x0 to x4) and whatever the assumptions of its symbols. *)
Theorem C96_value : forall (V E : Type) free_symbols subs expand (eval : E -> (symbol -> V) -> V), sympy_laws V E free_symbols subs expand eval ->
  forall e dirs dim f, fn_new E free_symbols subs expand e dirs dim = Ok f ->
  forall point param, eval (f_sym f) (reading point param) = eval e (reading point param).
Proof. exact new_value. Qed.
Print Assumptions C96_value.
Definition zx := sx Z.
(** y times x1 plus x times the parameter a. *)
Definition zx_sample : zx := SAdd (SMul (SSym ("y", false)) (SSym ("x1", true))) (SMul (SSym ("x", true)) (SSym ("a", false))).
Definition zx_new := fn_new zx sx_free sx_subs (fun e => e).
Definition zx_image : zx := SAdd (SMul (SSym ("x1", true)) (SSym ("x1", true))) (SMul (SSym ("x0", true)) (SSym ("a", false))).
Example C96_value_example : sympy_laws Z zx sx_free sx_subs (fun e => e) (sx_eval Z Z.add Z.mul) /\ zx_new zx_sample (Some [0; 1; 3]) None = Ok (Fn zx_image [0; 1; 3]) /\
  forall point param, sx_eval Z Z.add Z.mul zx_sample (reading point param) = (point 1%nat * point 1%nat + point 0%nat * param ("a", false))%Z.
Proof. split; [apply sx_laws|]. split; [vm_compute; reflexivity|]. intros point param. reflexivity. Qed.

(** It depends on no coordinate outside its directions: an expression that does is refused. *)
Theorem C96_depends : forall (V E : Type) free_symbols subs expand (eval : E -> (symbol -> V) -> V), sympy_laws V E free_symbols subs expand eval ->
  forall e dirs dim f, fn_new E free_symbols subs expand e dirs dim = Ok f ->
  forall point point' param, (forall d, In d (f_dirs f) -> point d = point' d) -> eval e (reading point param) = eval e (reading point' param).
Proof. exact new_reads. Qed.
Print Assumptions C96_depends.
Example C96_depends_example : exists f, zx_new zx_sample None None = Ok f /\ f_dirs f = [0; 1] /\ zx_new zx_sample (Some [0; 2]) None = Throw "AssertionError".
Proof. eexists. split; [vm_compute; reflexivity|]. split; vm_compute; reflexivity. Qed.

(** In the expression of the function only the symbols of its directions are left, and parameters. *)
Theorem C96_symbols : forall (V E : Type) free_symbols subs expand (eval : E -> (symbol -> V) -> V), sympy_laws V E free_symbols subs expand eval ->
  forall e dirs dim f u, fn_new E free_symbols subs expand e dirs dim = Ok f -> In u (free_symbols (f_sym f)) ->
  (exists d, In d (f_dirs f) /\ nth_error x_sub d = Some u) \/ coordinate (fst u) = None.
Proof. exact new_free. Qed.
Print Assumptions C96_symbols.
Example C96_symbols_example : exists f, zx_new zx_sample (Some [0; 1; 3]) None = Ok f /\ In ("x1", true) (sx_free (f_sym f)) /\ In ("a", false) (sx_free (f_sym f)).
Proof. eexists. split; [vm_compute; reflexivity|]. split; cbn; tauto. Qed.

(** Increasing directions below five that contain the coordinates of the expression are accepted and kept. *)
Theorem C96_accepts : forall (V E : Type) free_symbols subs expand (eval : E -> (symbol -> V) -> V), sympy_laws V E free_symbols subs expand eval ->
  forall e dirs, Sorted le dirs -> Forall (fun d => d < 5) dirs -> (forall i, reads free_symbols e i -> In i dirs) ->
  exists f, fn_new E free_symbols subs expand e (Some dirs) None = Ok f /\ f_dirs f = dirs.
Proof. exact new_accepts. Qed.
Print Assumptions C96_accepts.
Example C96_accepts_example : Sorted le [0; 1; 3] /\ Forall (fun d => d < 5) [0; 1; 3] /\ forall i, reads sx_free zx_sample i -> In i [0; 1; 3].
Proof.
  split; [repeat constructor|]. split; [repeat constructor|]. intros i (s & Hs & Hc). cbn in Hs. destruct Hs as [<-|[<-|[<-|[<-|[]]]]]; cbn in Hc; try discriminate Hc; injection Hc as <-; cbn; auto.
Qed.

(** No other directions are accepted; a number of dimensions cannot be given beside them. *)
Theorem C96_accepts_only : forall (E : Type) free_symbols subs expand e dirs dim (f : func E), fn_new E free_symbols subs expand e (Some dirs) dim = Ok f ->
  dim = None /\ Sorted le dirs /\ Forall (fun d => d < 5) dirs /\ f_dirs f = dirs.
Proof. exact new_only. Qed.
Print Assumptions C96_accepts_only.
Example C96_accepts_only_example : (exists f, zx_new zx_sample (Some [0; 1; 4]) None = Ok f) /\ zx_new zx_sample (Some [1; 0]) None = Throw "ValueError" /\ zx_new zx_sample (Some [0; 1]) (Some 2) = Throw "ValueError".
Proof. split; [eexists; vm_compute; reflexivity|]. split; vm_compute; reflexivity. Qed.

(** Without directions every expression is accepted; the directions are 0 to the largest coordinate read. *)
Theorem C96_default : forall (V E : Type) free_symbols subs expand (eval : E -> (symbol -> V) -> V), sympy_laws V E free_symbols subs expand eval ->
  forall e, exists f k, fn_new E free_symbols subs expand e None None = Ok f /\ f_dirs f = seq 0 k /\ k <= 5 /\ (k = 0 \/ reads free_symbols e (k - 1)).
Proof. exact new_default. Qed.
Print Assumptions C96_default.
Example C96_default_example : zx_new (SMul (SSym ("w", true)) (SNum 2%Z)) None None = Ok (Fn (SMul (SSym ("x3", true)) (SNum 2%Z)) [0; 1; 2; 3]) /\ zx_new (SSym ("a", false)) None None = Ok (Fn (SSym ("a", false)) []).
Proof. split; vm_compute; reflexivity. Qed.

Theorem C96_dimension : forall (V E : Type) free_symbols subs expand (eval : E -> (symbol -> V) -> V), sympy_laws V E free_symbols subs expand eval ->
  forall e n, n <= 5 -> (forall i, reads free_symbols e i -> i < n) -> exists f, fn_new E free_symbols subs expand e None (Some n) = Ok f /\ f_dirs f = seq 0 n.
Proof. exact new_dim. Qed.
Print Assumptions C96_dimension.
Example C96_dimension_example : forall i, reads sx_free zx_sample i -> i < 3.
Proof. intros i (s & Hs & Hc). cbn in Hs. destruct Hs as [<-|[<-|[<-|[<-|[]]]]]; cbn in Hc; try discriminate Hc; injection Hc as <-; lia. Qed.

(** Functions exist in five directions only: with any other direction, even one the expression does not read, the constructor raises IndexError. *)
Theorem C96_directions_refuted : forall (E : Type) free_symbols subs expand (e : E) dirs, Sorted le dirs -> Exists (fun d => 5 <= d) dirs ->
  fn_new E free_symbols subs expand e (Some dirs) None = Throw "IndexError".
Proof. exact new_limit. Qed.
Print Assumptions C96_directions_refuted.
Example C96_directions_refuted_example : Sorted le [0; 5] /\ Exists (fun d => 5 <= d) [0; 5].
Proof. split; [repeat constructor|]. apply Exists_cons_tl, Exists_cons_hd. lia. Qed.

(** as_xyz has the same value and uses only the names x, y, z, w, v for coordinates; the function made of it again is the same. *)
Theorem C96_xyz : forall (V E : Type) free_symbols subs expand (eval : E -> (symbol -> V) -> V), sympy_laws V E free_symbols subs expand eval ->
  forall (f : func E) point param, eval (as_xyz E subs f) (reading point param) = eval (f_sym f) (reading point param).
Proof. exact as_xyz_value. Qed.
Print Assumptions C96_xyz.
Example C96_xyz_example : as_xyz zx sx_subs (Fn zx_image [0; 1; 3]) = SAdd (SMul (SSym ("y", true)) (SSym ("y", true))) (SMul (SSym ("x", true)) (SSym ("a", false))).
Proof. vm_compute. reflexivity. Qed.

Theorem C96_round_trip : forall (V E : Type) free_symbols subs expand (eval : E -> (symbol -> V) -> V), sympy_laws V E free_symbols subs expand eval ->
  forall e dirs dim f, fn_new E free_symbols subs expand e dirs dim = Ok f ->
  (forall u, In u (free_symbols (as_xyz E subs f)) -> ~ In u x_sub) /\
  exists g, fn_new E free_symbols subs expand (as_xyz E subs f) (Some (f_dirs f)) None = Ok g /\ f_dirs g = f_dirs f /\
    forall point param, eval (f_sym g) (reading point param) = eval (f_sym f) (reading point param).
Proof. exact round_trip'. Qed.
Print Assumptions C96_round_trip.
Example C96_round_trip_example : exists f, zx_new zx_sample (Some [0; 1; 3]) None = Ok f /\ zx_new (as_xyz zx sx_subs f) (Some (f_dirs f)) None = Ok f.
Proof. eexists. split; vm_compute; reflexivity. Qed.

(** The constructor used in the other theorems of this development is this one, for expressions already in the symbols x0 to x4 and in expanded form. *)
Theorem C96_same_constructor : forall (E : Type) free_symbols subs expand (e : E) dirs,
  (forall s, In s (free_symbols e) -> conv (fst s) = None \/ (conv (fst s) = Some s /\ subs e s s = e)) -> expand e = e -> Forall (fun d => d < 5) dirs ->
  fn_new E free_symbols subs expand e (Some dirs) None = function_init E (variables E free_symbols) e dirs.
Proof. exact new_init. Qed.
Print Assumptions C96_same_constructor.
Example C96_same_constructor_example : forall s, In s (sx_free zx_image) -> conv (fst s) = None \/ (conv (fst s) = Some s /\ sx_subs zx_image s s = zx_image).
Proof. intros s Hs. cbn in Hs. destruct Hs as [<-|[<-|[<-|[<-|[]]]]]; [right|right|right|left]; try split; reflexivity. Qed.

Local Open Scope R_scope.
(** Cleaning keeps the value when every decimal coefficient is a fraction with a denominator of at most D ... *)
Theorem C97_exact : forall (E : Type) tiny limit float_value e_num e_add e_mul expand add_args mul_args (value : E -> R), parts_laws E float_value e_num e_add e_mul expand add_args mul_args value ->
  forall D, (1 <= D)%Z -> (forall x, tiny x = true <-> Rabs x < threshold) -> (forall x, closest D x (limit x)) ->
  forall e, IZR D * threshold < 1 -> (forall t x, In t (add_args (expand e)) -> In x (decimals float_value (mul_args t)) -> exists p q, (1 <= q <= D)%Z /\ x = IZR p / IZR q) ->
  value (sanitize num_R E tiny limit float_value e_num e_add e_mul expand add_args mul_args e) = value e.
Proof. exact sanitize_exact. Qed.
Print Assumptions C97_exact.
Definition D8 : Z := (10 ^ 8)%Z.
Lemma D8_value : IZR D8 = 10 ^ 8.
Proof. rewrite (pow_IZR 10 8). reflexivity. Qed.
Definition rx := sx R.
(** x/4 (in decimal notation) plus y. *)
Definition rx_sample : rx := SAdd (SMul (SFloat (1 / 4)) (SSym ("x0", true))) (SSym ("x1", true)).
Example C97_exact_example : (forall x, sample_tiny x = true <-> Rabs x < threshold) /\ (forall x, closest D8 x (sample_limit D8 x)) /\ IZR D8 * threshold < 1 /\
  (forall t x, In t (sx_terms rx_sample) -> In x (decimals sx_float (sx_factors t)) -> exists p q, (1 <= q <= D8)%Z /\ x = IZR p / IZR q).
Proof.
  split; [exact sample_tiny_iff|]. split; [intros x; apply sample_closest; unfold D8; lia|]. split; [rewrite D8_value; unfold threshold; lra|].
  intros t x Ht Hx. cbn in Ht. destruct Ht as [<-|[<-|[]]]; cbn in Hx; [|destruct Hx]. destruct Hx as [<-|[]]. exists 1%Z, 4%Z. split; [unfold D8; lia|reflexivity].
Qed.

(** ... and in general moves it by at most 1/(2D) times the sum of what stands beside the decimal coefficients. *)
Theorem C97_near : forall (E : Type) tiny limit float_value e_num e_add e_mul expand add_args mul_args (value : E -> R), parts_laws E float_value e_num e_add e_mul expand add_args mul_args value ->
  forall D, (1 <= D)%Z -> (forall x, tiny x = true <-> Rabs x < threshold) -> (forall x, closest D x (limit x)) ->
  forall e, 2 * IZR D * threshold <= 1 -> (forall t, In t (add_args (expand e)) -> (length (decimals float_value (mul_args t)) <= 1)%nat) ->
  Rabs (value (sanitize num_R E tiny limit float_value e_num e_add e_mul expand add_args mul_args e) - value e) <= / (2 * IZR D) * sum_of (map (fun t => beside float_value value (mul_args t)) (add_args (expand e))).
Proof. exact sanitize_near. Qed.
Print Assumptions C97_near.
Example C97_near_example : 2 * IZR D8 * threshold <= 1 /\ (forall t, In t (sx_terms rx_sample) -> (length (decimals sx_float (sx_factors t)) <= 1)%nat) /\
  forall env, sum_of (map (fun t => beside sx_float (fun e => sx_eval R Rplus Rmult e env) (sx_factors t)) (sx_terms rx_sample)) = Rabs (env ("x0", true)).
Proof.
  split; [rewrite D8_value; unfold threshold; lra|]. split; [intros t Ht; cbn in Ht; destruct Ht as [<-|[<-|[]]]; cbn; lia|].
  intros env. unfold sum_of, beside, product_of. cbn. rewrite Rplus_0_r, Rplus_0_r. f_equal. ring.
Qed.

(** Terms with a coefficient below 1/(2D) are dropped altogether, so the relative error is not small: with the default D = 1e8 the expression 1e-9 x becomes 0. *)
Theorem C97_drops : forall (E : Type) tiny limit float_value e_num e_add e_mul expand add_args mul_args (value : E -> R), parts_laws E float_value e_num e_add e_mul expand add_args mul_args value ->
  forall D, (1 <= D)%Z -> (forall x, tiny x = true <-> Rabs x < threshold) -> (forall x, closest D x (limit x)) ->
  forall e, (forall t, In t (add_args (expand e)) -> exists x, In x (decimals float_value (mul_args t)) /\ Rabs x < / (2 * IZR D)) ->
  value (sanitize num_R E tiny limit float_value e_num e_add e_mul expand add_args mul_args e) = 0.
Proof. exact sanitize_drops. Qed.
Print Assumptions C97_drops.
Definition rx_small : rx := SMul (SFloat (/ 10 ^ 9)) (SSym ("x0", true)).
Lemma rx_small_drops : forall t, In t (sx_terms rx_small) -> exists x, In x (decimals sx_float (sx_factors t)) /\ Rabs x < / (2 * IZR D8).
Proof.
  intros t Ht. cbn [sx_terms rx_small] in Ht. destruct Ht as [<-|[]]. exists (/ 10 ^ 9). split; [left; reflexivity|]. rewrite D8_value, Rabs_pos_eq by lra. lra.
Qed.
Example C97_drops_example : forall t, In t (sx_terms rx_small) -> exists x, In x (decimals sx_float (sx_factors t)) /\ Rabs x < / (2 * IZR D8).
Proof. exact rx_small_drops. Qed.

Theorem C97_relative_refuted : ~ forall (E : Type) tiny limit float_value e_num e_add e_mul expand add_args mul_args (value : E -> R), parts_laws E float_value e_num e_add e_mul expand add_args mul_args value ->
  (forall x, tiny x = true <-> Rabs x < threshold) -> (forall x, closest D8 x (limit x)) ->
  forall e, Rabs (value (sanitize num_R E tiny limit float_value e_num e_add e_mul expand add_args mul_args e) - value e) <= / 2 * Rabs (value e).
Proof.
  intros H. pose proof (sx_parts (fun _ => 1)) as P. pose proof (fun x => sample_closest D8 x ltac:(unfold D8; lia)) as C.
  specialize (H _ _ _ _ _ _ _ _ _ _ _ P sample_tiny_iff C rx_small). pose proof (sanitize_drops _ _ _ _ _ _ _ _ _ _ _ P D8 ltac:(unfold D8; lia) sample_tiny_iff C rx_small rx_small_drops) as S0. cbv beta in H, S0.
  match type of H with context [sanitize ?a ?b ?c ?d ?e ?f ?g ?h ?i ?j ?k ?l] => change (sx_eval R Rplus Rmult (sanitize a b c d e f g h i j k l) (fun _ => 1) = 0) in S0; rewrite S0 in H end.
  cbn [sx_eval rx_small] in H. rewrite Rminus_0_l, Rabs_Ropp in H. rewrite Rabs_pos_eq in H by lra. lra.
Qed.
Print Assumptions C97_relative_refuted.
