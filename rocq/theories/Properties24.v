(** Properties C83, C84, C85 and C86: the equations of equations.py. *)
From Coq Require Import String List Bool Arith Reals Lia Lra.
From Verif Require Import Base Num LinSpec CalcSpec OpSpec OpQuadSpec OpModel OpArithModel OpArithSpec OpArithFacts3 PyQuadModel PyQuadSpec EqnModel EqnSpec EqnFacts EqnFacts2.
Import ListNotations.
Local Open Scope R_scope.

(** Hypotheses met below: expressions with numbers, variables, sums, products, quotients by numbers, and exponentials. *)
Notation sx := (SVar 0). Notation sy := (SVar 1). Notation sz := (SVar 2). Notation sw := (SVar 3).
Ltac vars := intros d Hd; cbn in Hd; repeat (destruct Hd as [<-|Hd]); try contradiction; first [apply in_seq; lia|left; reflexivity].
Lemma nonzero2 : 2 <> 0. Proof. lra. Qed.
Lemma nonzero3 : 3 <> 0. Proof. lra. Qed.
Lemma nonzero1 : 1 <> 0. Proof. lra. Qed.

(** C83: the one-dimensional Fokker-Planck equation is the divergence of V' f + f'/β, whatever the potential V, the parameter β and the function f. *)
Theorem C83_fokker_planck : forall E (eval : E -> (nat -> R) -> R) free_vars fine e_add e_mul e_div e_opp e_0 e_1 e_var e_sqrt e_diff, sympy_eqn eval free_vars fine e_add e_mul e_div e_opp e_0 e_1 e_var e_sqrt e_diff ->
  forall beta b, number eval free_vars fine beta b -> b <> 0 ->
  forall Vp v v' f D, potential eval free_vars fine Vp 0 v v' -> twice 1 f D ->
  divergence 1 [fun x => v' (nth 0 x 0) * f x + D [1%nat] x / b] (apply_to eval (fokker_planck_1d E e_mul e_div e_1 e_diff beta Vp) D).
Proof. intros E eval free_vars fine e_add e_mul e_div e_opp e_0 e_1 e_var e_sqrt e_diff (HA & HV & HF & HC) beta b Hb Hb0. exact (fp1_divergence eval free_vars fine e_add e_mul e_div e_opp e_0 e_1 e_var e_sqrt e_diff HA HV HF HC beta b Hb Hb0). Qed.
Print Assumptions C83_fokker_planck.

Example C83_fokker_planck_example : divergence 1 [fun x => 2 * nth 0 x 0 * (nth 0 x 0 * exp (nth 0 x 0)) + s_D (SMul sx (SExp sx)) [1%nat] x / 2]
  (apply_to s_eval (fokker_planck_1d sexpr SMul SDiv (SNum 1) s_diff (SNum 2) (SMul sx sx)) (s_D (SMul sx (SExp sx)))).
Proof. apply (C83_fokker_planck sexpr s_eval s_vars q_fine SAdd SMul SDiv SOpp (SNum 0) (SNum 1) SVar q_sqrt s_diff q_eqn (SNum 2) 2 (q_number 2) nonzero2 (SMul sx sx) _ _ (fun x => nth 0 x 0 * exp (nth 0 x 0)) _ (q_square 0)). apply (s_twice 1 (SMul sx (SExp sx))); [cbn; auto|vars]. Qed.

(** C83: the McKean-Vlasov equation with white noise is the divergence of (V' + θ (x - m)) f + f'/β. *)
Theorem C83_white : forall E (eval : E -> (nat -> R) -> R) free_vars fine e_add e_mul e_div e_opp e_0 e_1 e_var e_sqrt e_diff, sympy_eqn eval free_vars fine e_add e_mul e_div e_opp e_0 e_1 e_var e_sqrt e_diff ->
  forall beta theta m b th mm, number eval free_vars fine beta b -> b <> 0 -> number eval free_vars fine theta th -> number eval free_vars fine m mm ->
  forall Vp v v' f D, potential eval free_vars fine Vp 0 v v' -> twice 1 f D ->
  divergence 1 [fun x => (v' (nth 0 x 0) + th * (nth 0 x 0 - mm)) * f x + D [1%nat] x / b] (apply_to eval (white_equation E e_add e_mul e_div e_opp e_1 e_var e_diff beta theta m Vp) D).
Proof. intros E eval free_vars fine e_add e_mul e_div e_opp e_0 e_1 e_var e_sqrt e_diff (HA & HV & HF & HC) beta theta m b th mm Hb Hb0 Hth Hm. exact (white_divergence eval free_vars fine e_add e_mul e_div e_opp e_0 e_1 e_var e_sqrt e_diff HA HV HF HC beta theta m b th mm Hb Hb0 Hth Hm). Qed.
Print Assumptions C83_white.

Example C83_white_example : divergence 1 [fun x => (2 * nth 0 x 0 + 3 * (nth 0 x 0 - 5)) * (nth 0 x 0 * exp (nth 0 x 0)) + s_D (SMul sx (SExp sx)) [1%nat] x / 2]
  (apply_to s_eval (white_equation sexpr SAdd SMul SDiv SOpp (SNum 1) SVar s_diff (SNum 2) (SNum 3) (SNum 5) (SMul sx sx)) (s_D (SMul sx (SExp sx)))).
Proof. apply (C83_white sexpr s_eval s_vars q_fine SAdd SMul SDiv SOpp (SNum 0) (SNum 1) SVar q_sqrt s_diff q_eqn (SNum 2) (SNum 3) (SNum 5) 2 3 5 (q_number 2) nonzero2 (q_number 3) (q_number 5) (SMul sx sx) _ _ (fun x => nth 0 x 0 * exp (nth 0 x 0)) _ (q_square 0)). apply (s_twice 1 (SMul sx (SExp sx))); [cbn; auto|vars]. Qed.

(** C83: the McKean-Vlasov equation with coloured noise is the divergence of the vector field of (V' + θ (x - m) - (1 - γ) ζ y / ε) f + (γ²/β) ∂f/∂x and (Vy' f + ∂f/∂y) / ε²; ζ is the coefficient of the noise. *)
Theorem C83_mckean : forall E (eval : E -> (nat -> R) -> R) free_vars fine e_add e_mul e_div e_opp e_0 e_1 e_var e_sqrt e_diff, sympy_eqn eval free_vars fine e_add e_mul e_div e_opp e_0 e_1 e_var e_sqrt e_diff ->
  forall beta gamma epsilon theta m noise b g e th mm ze, number eval free_vars fine beta b -> b <> 0 -> number eval free_vars fine gamma g -> number eval free_vars fine epsilon e -> e <> 0 -> number eval free_vars fine theta th -> number eval free_vars fine m mm -> number eval free_vars fine noise ze ->
  forall Vp Vy v v' vy vy' f D, potential eval free_vars fine Vp 0 v v' -> potential eval free_vars fine Vy 1 vy vy' -> twice 2 f D ->
  divergence 2 [(fun x => (v' (nth 0 x 0) + th * (nth 0 x 0 - mm) - (1 - g) * ze * nth 1 x 0 / e) * f x + g * g / b * D [1; 0]%nat x);
                (fun x => (vy' (nth 1 x 0) * f x + D [0; 1]%nat x) / (e * e))]
    (apply_to eval (mckean_equation E e_add e_mul e_div e_opp e_1 e_var e_diff beta gamma epsilon theta m noise Vp Vy) D).
Proof. intros E eval free_vars fine e_add e_mul e_div e_opp e_0 e_1 e_var e_sqrt e_diff (HA & HV & HF & HC) beta gamma epsilon theta m noise b g e th mm ze Hb Hb0 Hg He He0 Hth Hm Hze. exact (mckean_divergence eval free_vars fine e_add e_mul e_div e_opp e_0 e_1 e_var e_sqrt e_diff HA HV HF HC beta gamma epsilon theta m noise b g e th mm ze Hb Hb0 Hg He He0 Hth Hm Hze). Qed.
Print Assumptions C83_mckean.

Example C83_mckean_example : divergence 2 [(fun x => (2 * nth 0 x 0 + 3 * (nth 0 x 0 - 5) - (1 - 3) * 7 * nth 1 x 0 / 3) * (nth 0 x 0 * exp (nth 1 x 0)) + 3 * 3 / 2 * s_D (SMul sx (SExp sy)) [1; 0]%nat x);
    (fun x => (nth 1 x 0 * (nth 0 x 0 * exp (nth 1 x 0)) + s_D (SMul sx (SExp sy)) [0; 1]%nat x) / (3 * 3))]
  (apply_to s_eval (mckean_equation sexpr SAdd SMul SDiv SOpp (SNum 1) SVar s_diff (SNum 2) (SNum 3) (SNum 3) (SNum 3) (SNum 5) (SNum 7) (SMul sx sx) (SMul (SNum (1 / 2)) (SMul sy sy))) (s_D (SMul sx (SExp sy)))).
Proof. apply (C83_mckean sexpr s_eval s_vars q_fine SAdd SMul SDiv SOpp (SNum 0) (SNum 1) SVar q_sqrt s_diff q_eqn (SNum 2) (SNum 3) (SNum 3) (SNum 3) (SNum 5) (SNum 7) 2 3 3 3 5 7 (q_number 2) nonzero2 (q_number 3) (q_number 3) nonzero3 (q_number 3) (q_number 5) (q_number 7) (SMul sx sx) (SMul (SNum (1 / 2)) (SMul sy sy)) _ _ _ _ (fun x => nth 0 x 0 * exp (nth 1 x 0)) _ (q_square 0) (q_half 1)). apply (s_twice 2 (SMul sx (SExp sy))); [cbn; auto|vars]. Qed.

(** C83: if the potential of the noise is left undefined, its coefficient is that of the Ornstein-Uhlenbeck process, the square root of 1/β. *)
Theorem C83_noise : forall E (eval : E -> (nat -> R) -> R) free_vars fine e_add e_mul e_div e_opp e_0 e_1 e_var e_sqrt e_diff, sympy_eqn eval free_vars fine e_add e_mul e_div e_opp e_0 e_1 e_var e_sqrt e_diff ->
  forall beta b, number eval free_vars fine beta b -> b <> 0 -> number eval free_vars fine (mckean_noise E e_div e_1 e_sqrt beta) (sqrt (1 / b)).
Proof. intros E eval free_vars fine e_add e_mul e_div e_opp e_0 e_1 e_var e_sqrt e_diff (HA & HV & HF & HC) beta b Hb Hb0. exact (n_sqrt eval free_vars fine e_add e_mul e_div e_opp e_0 e_1 e_var e_sqrt e_diff HA HV HC beta b Hb Hb0). Qed.
Print Assumptions C83_noise.
Example C83_noise_example : number s_eval s_vars q_fine (mckean_noise sexpr SDiv (SNum 1) q_sqrt (SNum 2)) (sqrt (1 / 2)).
Proof. exact (C83_noise sexpr s_eval s_vars q_fine SAdd SMul SDiv SOpp (SNum 0) (SNum 1) SVar q_sqrt s_diff q_eqn (SNum 2) 2 (q_number 2) nonzero2). Qed.

(** C83: the McKean-Vlasov equation with harmonic noise is the divergence of its three fluxes. *)
Theorem C83_harmonic : forall E (eval : E -> (nat -> R) -> R) free_vars fine e_add e_mul e_div e_opp e_0 e_1 e_var e_sqrt e_diff, sympy_eqn eval free_vars fine e_add e_mul e_div e_opp e_0 e_1 e_var e_sqrt e_diff ->
  forall beta gamma epsilon theta m b g e th mm, number eval free_vars fine beta b -> b <> 0 -> number eval free_vars fine gamma g -> number eval free_vars fine epsilon e -> e <> 0 -> number eval free_vars fine theta th -> number eval free_vars fine m mm ->
  forall Vp v v' f D, potential eval free_vars fine Vp 0 v v' -> twice 3 f D ->
  divergence 3 [(fun x => (v' (nth 0 x 0) + th * (nth 0 x 0 - mm) - (1 - g) * sqrt (1 / b) * nth 2 x 0 / e) * f x + g * g / b * D [1; 0; 0]%nat x);
                (fun x => (nth 2 x 0 * f x + nth 1 x 0 * f x + D [0; 1; 0]%nat x) / (e * e));
                (fun x => - (nth 1 x 0 * f x) / (e * e))]
    (apply_to eval (harmonic_equation E e_add e_mul e_div e_opp e_1 e_var e_sqrt e_diff beta gamma epsilon theta m Vp) D).
Proof. intros E eval free_vars fine e_add e_mul e_div e_opp e_0 e_1 e_var e_sqrt e_diff (HA & HV & HF & HC) beta gamma epsilon theta m b g e th mm Hb Hb0 Hg He He0 Hth Hm. exact (harmonic_divergence eval free_vars fine e_add e_mul e_div e_opp e_0 e_1 e_var e_sqrt e_diff HA HV HF HC beta gamma epsilon theta m b g e th mm Hb Hb0 Hg He He0 Hth Hm). Qed.
Print Assumptions C83_harmonic.

Example C83_harmonic_example : divergence 3 [(fun x => (2 * nth 0 x 0 + 3 * (nth 0 x 0 - 5) - (1 - 3) * sqrt (1 / 2) * nth 2 x 0 / 3) * (nth 0 x 0 * exp (nth 2 x 0)) + 3 * 3 / 2 * s_D (SMul sx (SExp sz)) [1; 0; 0]%nat x);
    (fun x => (nth 2 x 0 * (nth 0 x 0 * exp (nth 2 x 0)) + nth 1 x 0 * (nth 0 x 0 * exp (nth 2 x 0)) + s_D (SMul sx (SExp sz)) [0; 1; 0]%nat x) / (3 * 3));
    (fun x => - (nth 1 x 0 * (nth 0 x 0 * exp (nth 2 x 0))) / (3 * 3))]
  (apply_to s_eval (harmonic_equation sexpr SAdd SMul SDiv SOpp (SNum 1) SVar q_sqrt s_diff (SNum 2) (SNum 3) (SNum 3) (SNum 3) (SNum 5) (SMul sx sx)) (s_D (SMul sx (SExp sz)))).
Proof. apply (C83_harmonic sexpr s_eval s_vars q_fine SAdd SMul SDiv SOpp (SNum 0) (SNum 1) SVar q_sqrt s_diff q_eqn (SNum 2) (SNum 3) (SNum 3) (SNum 3) (SNum 5) 2 3 3 3 5 (q_number 2) nonzero2 (q_number 3) (q_number 3) nonzero3 (q_number 3) (q_number 5) (SMul sx sx) _ _ (fun x => nth 0 x 0 * exp (nth 2 x 0)) _ (q_square 0)). apply (s_twice 3 (SMul sx (SExp sz))); [cbn; auto|vars]. Qed.

(** C83: the forward Langevin equation, with x the momentum and y the position, is the divergence of the vector field of y f + λ (x f + ∂f/∂x) and -x f. *)
Theorem C83_langevin : forall E (eval : E -> (nat -> R) -> R) free_vars fine e_add e_mul e_div e_opp e_0 e_1 e_var e_sqrt e_diff, sympy_eqn eval free_vars fine e_add e_mul e_div e_opp e_0 e_1 e_var e_sqrt e_diff ->
  forall gamma g, number eval free_vars fine gamma g ->
  forall f D, twice 2 f D ->
  divergence 2 [(fun x => nth 1 x 0 * f x + g * (nth 0 x 0 * f x + D [1; 0]%nat x)); (fun x => - (nth 0 x 0 * f x))]
    (apply_to eval (langevin_forward E e_mul e_opp e_1 e_var e_diff gamma) D).
Proof. intros E eval free_vars fine e_add e_mul e_div e_opp e_0 e_1 e_var e_sqrt e_diff (HA & HV & HF & HC) gamma g Hg. exact (langevin_forward_divergence eval free_vars fine e_add e_mul e_div e_opp e_0 e_1 e_var e_sqrt e_diff HA HV HF HC gamma g Hg). Qed.
Print Assumptions C83_langevin.

Example C83_langevin_example : divergence 2 [(fun x => nth 1 x 0 * (nth 0 x 0 * exp (nth 1 x 0)) + 3 * (nth 0 x 0 * (nth 0 x 0 * exp (nth 1 x 0)) + s_D (SMul sx (SExp sy)) [1; 0]%nat x)); (fun x => - (nth 0 x 0 * (nth 0 x 0 * exp (nth 1 x 0))))]
  (apply_to s_eval (langevin_forward sexpr SMul SOpp (SNum 1) SVar s_diff (SNum 3)) (s_D (SMul sx (SExp sy)))).
Proof. apply (C83_langevin sexpr s_eval s_vars q_fine SAdd SMul SDiv SOpp (SNum 0) (SNum 1) SVar q_sqrt s_diff q_eqn (SNum 3) 3 (q_number 3) (fun x => nth 0 x 0 * exp (nth 1 x 0))). apply (s_twice 2 (SMul sx (SExp sy))); [cbn; auto|vars]. Qed.

(** C84: the Gibbs measure exp(-β V), times any number, solves the one-dimensional Fokker-Planck equation. *)
Theorem C84_fokker_planck : forall E (eval : E -> (nat -> R) -> R) free_vars fine e_add e_mul e_div e_opp e_0 e_1 e_var e_sqrt e_diff, sympy_eqn eval free_vars fine e_add e_mul e_div e_opp e_0 e_1 e_var e_sqrt e_diff ->
  forall beta b (c : R), number eval free_vars fine beta b -> b <> 0 ->
  forall Vp v v' D, potential eval free_vars fine Vp 0 v v' -> twice 1 (fun x => c * exp (- (b * v (nth 0 x 0)))) D ->
  forall x, length x = 1%nat -> apply_to eval (fokker_planck_1d E e_mul e_div e_1 e_diff beta Vp) D x = 0.
Proof. intros E eval free_vars fine e_add e_mul e_div e_opp e_0 e_1 e_var e_sqrt e_diff (HA & HV & HF & HC) beta b c Hb Hb0. exact (fp1_steady eval free_vars fine e_add e_mul e_div e_opp e_0 e_1 e_var e_sqrt e_diff HA HV HF HC beta b c Hb Hb0). Qed.
Print Assumptions C84_fokker_planck.

Definition gibbs1 : sexpr := SMul (SNum 7) (SExp (SOpp (SMul (SNum 2) (SMul sx sx)))).
Example C84_fokker_planck_example : forall x, length x = 1%nat -> apply_to s_eval (fokker_planck_1d sexpr SMul SDiv (SNum 1) s_diff (SNum 2) (SMul sx sx)) (s_D gibbs1) x = 0.
Proof. apply (C84_fokker_planck sexpr s_eval s_vars q_fine SAdd SMul SDiv SOpp (SNum 0) (SNum 1) SVar q_sqrt s_diff q_eqn (SNum 2) 2 7 (q_number 2) nonzero2 (SMul sx sx) _ _ _ (q_square 0)). apply (s_twice 1 gibbs1); [cbn; auto|vars]. Qed.

(** C84: exp(-β (V + θ (x - m)²/2)) solves the McKean-Vlasov equation with white noise. *)
Theorem C84_white : forall E (eval : E -> (nat -> R) -> R) free_vars fine e_add e_mul e_div e_opp e_0 e_1 e_var e_sqrt e_diff, sympy_eqn eval free_vars fine e_add e_mul e_div e_opp e_0 e_1 e_var e_sqrt e_diff ->
  forall beta theta m b th mm (c : R), number eval free_vars fine beta b -> b <> 0 -> number eval free_vars fine theta th -> number eval free_vars fine m mm ->
  forall Vp v v' D, potential eval free_vars fine Vp 0 v v' -> twice 1 (fun x => c * exp (- (b * (v (nth 0 x 0) + th * ((nth 0 x 0 - mm) * (nth 0 x 0 - mm)) / 2)))) D ->
  forall x, length x = 1%nat -> apply_to eval (white_equation E e_add e_mul e_div e_opp e_1 e_var e_diff beta theta m Vp) D x = 0.
Proof. intros E eval free_vars fine e_add e_mul e_div e_opp e_0 e_1 e_var e_sqrt e_diff (HA & HV & HF & HC) beta theta m b th mm c Hb Hb0 Hth Hm. exact (white_steady eval free_vars fine e_add e_mul e_div e_opp e_0 e_1 e_var e_sqrt e_diff HA HV HF HC beta theta m b th mm c Hb Hb0 Hth Hm). Qed.
Print Assumptions C84_white.

Definition shifted : sexpr := SAdd sx (SOpp (SNum 5)).
Definition energy : sexpr := SMul (SNum 2) (SAdd (SMul sx sx) (SDiv (SMul (SNum 3) (SMul shifted shifted)) (SNum 2))).
Lemma energy_twice : forall dim e f, q_fine e -> incl (s_vars e) (seq 0 dim) -> (forall x, f x = s_eval e (fun d => nth d x 0)) -> twice dim f (s_D e).
Proof. intros dim e f Hf Hv H. destruct (s_twice dim e Hf Hv) as [T1 T2]. split; [intros x Hx; rewrite H; apply T1; exact Hx|exact T2]. Qed.
Example C84_white_example : forall x, length x = 1%nat -> apply_to s_eval (white_equation sexpr SAdd SMul SDiv SOpp (SNum 1) SVar s_diff (SNum 2) (SNum 3) (SNum 5) (SMul sx sx)) (s_D (SMul (SNum 7) (SExp (SOpp energy)))) x = 0.
Proof. apply (C84_white sexpr s_eval s_vars q_fine SAdd SMul SDiv SOpp (SNum 0) (SNum 1) SVar q_sqrt s_diff q_eqn (SNum 2) (SNum 3) (SNum 5) 2 3 5 7 (q_number 2) nonzero2 (q_number 3) (q_number 5) (SMul sx sx) _ _ _ (q_square 0)). apply energy_twice; [cbn; repeat split; lra|vars|intros x; cbn; reflexivity]. Qed.

(** C84: with γ = 1, exp(-β (V + θ (x - m)²/2)) times exp(-Vy(y)) solves the McKean-Vlasov equation with coloured noise, whatever the coefficient of the noise. *)
Theorem C84_mckean : forall E (eval : E -> (nat -> R) -> R) free_vars fine e_add e_mul e_div e_opp e_0 e_1 e_var e_sqrt e_diff, sympy_eqn eval free_vars fine e_add e_mul e_div e_opp e_0 e_1 e_var e_sqrt e_diff ->
  forall beta gamma epsilon theta m noise b g e th mm ze (c : R), number eval free_vars fine beta b -> b <> 0 -> number eval free_vars fine gamma g -> number eval free_vars fine epsilon e -> e <> 0 -> number eval free_vars fine theta th -> number eval free_vars fine m mm -> number eval free_vars fine noise ze ->
  forall Vp Vy v v' vy vy' D, g = 1 -> potential eval free_vars fine Vp 0 v v' -> potential eval free_vars fine Vy 1 vy vy' ->
  twice 2 (fun x => c * exp (- (b * (v (nth 0 x 0) + th * ((nth 0 x 0 - mm) * (nth 0 x 0 - mm)) / 2) + vy (nth 1 x 0)))) D ->
  forall x, length x = 2%nat -> apply_to eval (mckean_equation E e_add e_mul e_div e_opp e_1 e_var e_diff beta gamma epsilon theta m noise Vp Vy) D x = 0.
Proof. intros E eval free_vars fine e_add e_mul e_div e_opp e_0 e_1 e_var e_sqrt e_diff (HA & HV & HF & HC) beta gamma epsilon theta m noise b g e th mm ze c Hb Hb0 Hg He He0 Hth Hm Hze. exact (mckean_steady eval free_vars fine e_add e_mul e_div e_opp e_0 e_1 e_var e_sqrt e_diff HA HV HF HC beta gamma epsilon theta m noise b g e th mm ze c Hb Hb0 Hg He He0 Hth Hm Hze). Qed.
Print Assumptions C84_mckean.

Example C84_mckean_example : forall x, length x = 2%nat ->
  apply_to s_eval (mckean_equation sexpr SAdd SMul SDiv SOpp (SNum 1) SVar s_diff (SNum 2) (SNum 1) (SNum 3) (SNum 3) (SNum 5) (SNum 7) (SMul sx sx) (SMul (SNum (1 / 2)) (SMul sy sy)))
    (s_D (SMul (SNum 7) (SExp (SOpp (SAdd energy (SMul (SNum (1 / 2)) (SMul sy sy))))))) x = 0.
Proof. apply (C84_mckean sexpr s_eval s_vars q_fine SAdd SMul SDiv SOpp (SNum 0) (SNum 1) SVar q_sqrt s_diff q_eqn (SNum 2) (SNum 1) (SNum 3) (SNum 3) (SNum 5) (SNum 7) 2 1 3 3 5 7 7 (q_number 2) nonzero2 (q_number 1) (q_number 3) nonzero3 (q_number 3) (q_number 5) (q_number 7) (SMul sx sx) (SMul (SNum (1 / 2)) (SMul sy sy)) _ _ _ _ _ eq_refl (q_square 0) (q_half 1)). apply energy_twice; [cbn; repeat split; lra|vars|intros x; cbn; reflexivity]. Qed.

(** C84: with γ = 1, exp(-β (V + θ (x - m)²/2)) times exp(-(y² + z²)/2) solves the McKean-Vlasov equation with harmonic noise. *)
Theorem C84_harmonic : forall E (eval : E -> (nat -> R) -> R) free_vars fine e_add e_mul e_div e_opp e_0 e_1 e_var e_sqrt e_diff, sympy_eqn eval free_vars fine e_add e_mul e_div e_opp e_0 e_1 e_var e_sqrt e_diff ->
  forall beta gamma epsilon theta m b g e th mm (c : R), number eval free_vars fine beta b -> b <> 0 -> number eval free_vars fine gamma g -> number eval free_vars fine epsilon e -> e <> 0 -> number eval free_vars fine theta th -> number eval free_vars fine m mm ->
  forall Vp v v' D, g = 1 -> potential eval free_vars fine Vp 0 v v' ->
  twice 3 (fun x => c * exp (- (b * (v (nth 0 x 0) + th * ((nth 0 x 0 - mm) * (nth 0 x 0 - mm)) / 2) + (nth 1 x 0 * nth 1 x 0 + nth 2 x 0 * nth 2 x 0) / 2))) D ->
  forall x, length x = 3%nat -> apply_to eval (harmonic_equation E e_add e_mul e_div e_opp e_1 e_var e_sqrt e_diff beta gamma epsilon theta m Vp) D x = 0.
Proof. intros E eval free_vars fine e_add e_mul e_div e_opp e_0 e_1 e_var e_sqrt e_diff (HA & HV & HF & HC) beta gamma epsilon theta m b g e th mm c Hb Hb0 Hg He He0 Hth Hm. exact (harmonic_steady eval free_vars fine e_add e_mul e_div e_opp e_0 e_1 e_var e_sqrt e_diff HA HV HF HC beta gamma epsilon theta m b g e th mm c Hb Hb0 Hg He He0 Hth Hm). Qed.
Print Assumptions C84_harmonic.

Example C84_harmonic_example : forall x, length x = 3%nat ->
  apply_to s_eval (harmonic_equation sexpr SAdd SMul SDiv SOpp (SNum 1) SVar q_sqrt s_diff (SNum 2) (SNum 1) (SNum 3) (SNum 3) (SNum 5) (SMul sx sx))
    (s_D (SMul (SNum 7) (SExp (SOpp (SAdd energy (SDiv (SAdd (SMul sy sy) (SMul sz sz)) (SNum 2))))))) x = 0.
Proof. apply (C84_harmonic sexpr s_eval s_vars q_fine SAdd SMul SDiv SOpp (SNum 0) (SNum 1) SVar q_sqrt s_diff q_eqn (SNum 2) (SNum 1) (SNum 3) (SNum 3) (SNum 5) 2 1 3 3 5 7 (q_number 2) nonzero2 (q_number 1) (q_number 3) nonzero3 (q_number 3) (q_number 5) (SMul sx sx) _ _ _ eq_refl (q_square 0)). apply energy_twice; [cbn; repeat split; lra|vars|intros x; cbn; reflexivity]. Qed.

(** C84: exp(-(x² + y²)/2) solves the forward Langevin equation, whatever the friction λ. *)
Theorem C84_langevin : forall E (eval : E -> (nat -> R) -> R) free_vars fine e_add e_mul e_div e_opp e_0 e_1 e_var e_sqrt e_diff, sympy_eqn eval free_vars fine e_add e_mul e_div e_opp e_0 e_1 e_var e_sqrt e_diff ->
  forall gamma g (c : R), number eval free_vars fine gamma g ->
  forall D, twice 2 (fun x => c * exp (- ((nth 0 x 0 * nth 0 x 0 + nth 1 x 0 * nth 1 x 0) / 2))) D ->
  forall x, length x = 2%nat -> apply_to eval (langevin_forward E e_mul e_opp e_1 e_var e_diff gamma) D x = 0.
Proof. intros E eval free_vars fine e_add e_mul e_div e_opp e_0 e_1 e_var e_sqrt e_diff (HA & HV & HF & HC) gamma g c Hg. exact (langevin_forward_steady eval free_vars fine e_add e_mul e_div e_opp e_0 e_1 e_var e_sqrt e_diff HA HV HF HC gamma g c Hg). Qed.
Print Assumptions C84_langevin.

Example C84_langevin_example : forall x, length x = 2%nat ->
  apply_to s_eval (langevin_forward sexpr SMul SOpp (SNum 1) SVar s_diff (SNum 3)) (s_D (SMul (SNum 7) (SExp (SOpp (SDiv (SAdd (SMul sx sx) (SMul sy sy)) (SNum 2)))))) x = 0.
Proof. apply (C84_langevin sexpr s_eval s_vars q_fine SAdd SMul SDiv SOpp (SNum 0) (SNum 1) SVar q_sqrt s_diff q_eqn (SNum 3) 3 7 (q_number 3)). apply energy_twice; [cbn; repeat split; lra|vars|intros x; cbn; reflexivity]. Qed.

(** C85: Overdamped.backward is the generator of dX = -V'(X) dt + sqrt(2/β) dW. *)
Theorem C85_overdamped : forall E (eval : E -> (nat -> R) -> R) free_vars fine e_add e_mul e_div e_opp e_0 e_1 e_var e_sqrt e_diff, sympy_eqn eval free_vars fine e_add e_mul e_div e_opp e_0 e_1 e_var e_sqrt e_diff ->
  forall beta b, number eval free_vars fine beta b -> b <> 0 ->
  forall V v v', potential eval free_vars fine V 0 v v' -> generator eval 1 (overdamped_backward E e_mul e_div e_opp e_1 e_diff beta V) (fun x => [- v' (nth 0 x 0)]) [[1 / b]].
Proof. intros E eval free_vars fine e_add e_mul e_div e_opp e_0 e_1 e_var e_sqrt e_diff (HA & HV & HF & HC) beta b Hb Hb0. exact (overdamped_generator eval free_vars fine e_add e_mul e_div e_opp e_0 e_1 e_var e_sqrt e_diff HA HV HF HC beta b Hb Hb0). Qed.
Print Assumptions C85_overdamped.

Example C85_overdamped_example : generator s_eval 1 (overdamped_backward sexpr SMul SDiv SOpp (SNum 1) s_diff (SNum 2) (SMul sx sx)) (fun x => [- (2 * nth 0 x 0)]) [[1 / 2]].
Proof. exact (C85_overdamped sexpr s_eval s_vars q_fine SAdd SMul SDiv SOpp (SNum 0) (SNum 1) SVar q_sqrt s_diff q_eqn (SNum 2) 2 (q_number 2) nonzero2 (SMul sx sx) _ _ (q_square 0)). Qed.

(** C85: Langevin.backward is the generator of the Langevin dynamics with x the momentum and y the position: drift -V'(y) - γ x and x, diffusion γ/β of the momentum. *)
Theorem C85_langevin : forall E (eval : E -> (nat -> R) -> R) free_vars fine e_add e_mul e_div e_opp e_0 e_1 e_var e_sqrt e_diff, sympy_eqn eval free_vars fine e_add e_mul e_div e_opp e_0 e_1 e_var e_sqrt e_diff ->
  forall beta gamma b g, number eval free_vars fine beta b -> b <> 0 -> number eval free_vars fine gamma g ->
  forall Vy v v', potential eval free_vars fine Vy 1 v v' ->
  generator eval 2 (langevin_backward E e_mul e_div e_opp e_1 e_var e_diff gamma beta Vy) (fun x => [- v' (nth 1 x 0) - g * nth 0 x 0; nth 0 x 0]) [[g / b; 0]; [0; 0]].
Proof. intros E eval free_vars fine e_add e_mul e_div e_opp e_0 e_1 e_var e_sqrt e_diff (HA & HV & HF & HC) beta gamma b g Hb Hb0 Hg. exact (langevin_generator eval free_vars fine e_add e_mul e_div e_opp e_0 e_1 e_var e_sqrt e_diff HA HV HF HC beta gamma b g Hb Hb0 Hg). Qed.
Print Assumptions C85_langevin.

Example C85_langevin_example : generator s_eval 2 (langevin_backward sexpr SMul SDiv SOpp (SNum 1) SVar s_diff (SNum 3) (SNum 2) (SMul sy sy)) (fun x => [- (2 * nth 1 x 0) - 3 * nth 0 x 0; nth 0 x 0]) [[3 / 2; 0]; [0; 0]].
Proof. exact (C85_langevin sexpr s_eval s_vars q_fine SAdd SMul SDiv SOpp (SNum 0) (SNum 1) SVar q_sqrt s_diff q_eqn (SNum 2) (SNum 3) 2 3 (q_number 2) nonzero2 (q_number 3) (SMul sy sy) _ _ (q_square 1)). Qed.

(** C85: Generalized_Langevin.backward with the parameter γ is the generator of the Langevin dynamics with x the position and y the momentum. *)
Theorem C85_gle_friction : forall E (eval : E -> (nat -> R) -> R) free_vars fine e_add e_mul e_div e_opp e_0 e_1 e_var e_sqrt e_diff, sympy_eqn eval free_vars fine e_add e_mul e_div e_opp e_0 e_1 e_var e_sqrt e_diff ->
  forall beta gamma b g (e_is0 : E -> bool), number eval free_vars fine beta b -> b <> 0 -> number eval free_vars fine gamma g ->
  forall Vx v v', potential eval free_vars fine Vx 0 v v' -> exists L, generalized_langevin E e_add e_mul e_div e_opp e_1 e_var e_diff e_is0 beta Vx (Friction E gamma) = Ok (2%nat, L) /\
  generator eval 2 L (fun x => [nth 1 x 0; - v' (nth 0 x 0) - g * nth 1 x 0]) [[0; 0]; [0; g / b]].
Proof. intros E eval free_vars fine e_add e_mul e_div e_opp e_0 e_1 e_var e_sqrt e_diff (HA & HV & HF & HC) beta gamma b g e_is0 Hb Hb0 Hg. exact (gle_friction_generator eval free_vars fine e_add e_mul e_div e_opp e_0 e_1 e_var e_sqrt e_diff HA HV HF HC beta gamma b g Hb Hb0 Hg e_is0). Qed.
Print Assumptions C85_gle_friction.

Example C85_gle_friction_example : exists L, generalized_langevin sexpr SAdd SMul SDiv SOpp (SNum 1) SVar s_diff s_is0 (SNum 2) (SMul sx sx) (Friction sexpr (SNum 3)) = Ok (2%nat, L) /\ generator s_eval 2 L (fun x => [nth 1 x 0; - (2 * nth 0 x 0) - 3 * nth 1 x 0]) [[0; 0]; [0; 3 / 2]].
Proof. exact (C85_gle_friction sexpr s_eval s_vars q_fine SAdd SMul SDiv SOpp (SNum 0) (SNum 1) SVar q_sqrt s_diff q_eqn (SNum 2) (SNum 3) 2 3 s_is0 (q_number 2) nonzero2 (q_number 3) (SMul sx sx) _ _ (q_square 0)). Qed.

(** C85: with one auxiliary process z it is the generator of dx = y dt, dy = (-V' + λ z) dt, dz = (-λ y - α z) dt + sqrt(2 α/β) dW, if sympy does not find that α is 0. *)
Theorem C85_gle1 : forall E (eval : E -> (nat -> R) -> R) free_vars fine e_add e_mul e_div e_opp e_0 e_1 e_var e_sqrt e_diff, sympy_eqn eval free_vars fine e_add e_mul e_div e_opp e_0 e_1 e_var e_sqrt e_diff ->
  forall beta lambda alpha b la al (e_is0 : E -> bool), number eval free_vars fine beta b -> b <> 0 -> number eval free_vars fine lambda la -> number eval free_vars fine alpha al ->
  forall Vx v v', potential eval free_vars fine Vx 0 v v' -> e_is0 alpha = false -> exists L, generalized_langevin E e_add e_mul e_div e_opp e_1 e_var e_diff e_is0 beta Vx (Aux1 E lambda alpha) = Ok (3%nat, L) /\
  generator eval 3 L (fun x => [nth 1 x 0; - v' (nth 0 x 0) + la * nth 2 x 0; - la * nth 1 x 0 - al * nth 2 x 0]) [[0; 0; 0]; [0; 0; 0]; [0; 0; al / b]].
Proof. intros E eval free_vars fine e_add e_mul e_div e_opp e_0 e_1 e_var e_sqrt e_diff (HA & HV & HF & HC) beta lambda alpha b la al e_is0 Hb Hb0 Hla Hal. exact (gle1_generator eval free_vars fine e_add e_mul e_div e_opp e_0 e_1 e_var e_sqrt e_diff HA HV HF HC beta lambda alpha b la al Hb Hb0 Hla Hal e_is0). Qed.
Print Assumptions C85_gle1.

Lemma is0_3 : s_is0 (SNum 3) = false.
Proof. cbn. destruct (Req_EM_T 3 0); [lra|reflexivity]. Qed.
Example C85_gle1_example : exists L, generalized_langevin sexpr SAdd SMul SDiv SOpp (SNum 1) SVar s_diff s_is0 (SNum 2) (SMul sx sx) (Aux1 sexpr (SNum 5) (SNum 3)) = Ok (3%nat, L) /\
  generator s_eval 3 L (fun x => [nth 1 x 0; - (2 * nth 0 x 0) + 5 * nth 2 x 0; - (5) * nth 1 x 0 - 3 * nth 2 x 0]) [[0; 0; 0]; [0; 0; 0]; [0; 0; 3 / 2]].
Proof. exact (C85_gle1 sexpr s_eval s_vars q_fine SAdd SMul SDiv SOpp (SNum 0) (SNum 1) SVar q_sqrt s_diff q_eqn (SNum 2) (SNum 5) (SNum 3) 2 5 3 s_is0 (q_number 2) nonzero2 (q_number 5) (q_number 3) (SMul sx sx) _ _ (q_square 0) is0_3). Qed.

(** C85: with two auxiliary processes it is the generator with the friction matrix A and the diffusion matrix (A + A^T)/β, if sympy does not find that the determinant of A is 0. *)
Theorem C85_gle2 : forall E (eval : E -> (nat -> R) -> R) free_vars fine e_add e_mul e_div e_opp e_0 e_1 e_var e_sqrt e_diff, sympy_eqn eval free_vars fine e_add e_mul e_div e_opp e_0 e_1 e_var e_sqrt e_diff ->
  forall beta l1 l2 a11 a12 a21 a22 b r1 r2 q11 q12 q21 q22 (e_is0 : E -> bool), number eval free_vars fine beta b -> b <> 0 -> number eval free_vars fine l1 r1 -> number eval free_vars fine l2 r2 -> number eval free_vars fine a11 q11 -> number eval free_vars fine a12 q12 -> number eval free_vars fine a21 q21 -> number eval free_vars fine a22 q22 ->
  forall Vx v v', potential eval free_vars fine Vx 0 v v' -> e_is0 (e_sub E e_add e_opp (e_mul a11 a22) (e_mul a12 a21)) = false -> exists L, generalized_langevin E e_add e_mul e_div e_opp e_1 e_var e_diff e_is0 beta Vx (Aux2 E l1 l2 a11 a12 a21 a22) = Ok (4%nat, L) /\
  generator eval 4 L (fun x => [nth 1 x 0; - v' (nth 0 x 0) + r1 * nth 2 x 0 + r2 * nth 3 x 0; - r1 * nth 1 x 0 - q11 * nth 2 x 0 - q12 * nth 3 x 0; - r2 * nth 1 x 0 - q21 * nth 2 x 0 - q22 * nth 3 x 0])
    [[0; 0; 0; 0]; [0; 0; 0; 0]; [0; 0; q11 / b; q12 / b]; [0; 0; q21 / b; q22 / b]].
Proof. intros E eval free_vars fine e_add e_mul e_div e_opp e_0 e_1 e_var e_sqrt e_diff (HA & HV & HF & HC) beta l1 l2 a11 a12 a21 a22 b r1 r2 q11 q12 q21 q22 e_is0 Hb Hb0 H1 H2 H11 H12 H21 H22. exact (gle2_generator eval free_vars fine e_add e_mul e_div e_opp e_0 e_1 e_var e_sqrt e_diff HA HV HF HC beta l1 l2 a11 a12 a21 a22 b r1 r2 q11 q12 q21 q22 Hb Hb0 H1 H2 H11 H12 H21 H22 e_is0). Qed.
Print Assumptions C85_gle2.

Example C85_gle2_example : exists L, generalized_langevin sexpr SAdd SMul SDiv SOpp (SNum 1) SVar s_diff s_is0 (SNum 2) (SMul sx sx) (Aux2 sexpr (SNum 5) (SNum 7) (SNum 0) (SNum (-1)) (SNum 1) (SNum 3)) = Ok (4%nat, L) /\
  generator s_eval 4 L (fun x => [nth 1 x 0; - (2 * nth 0 x 0) + 5 * nth 2 x 0 + 7 * nth 3 x 0; - (5) * nth 1 x 0 - 0 * nth 2 x 0 - -1 * nth 3 x 0; - (7) * nth 1 x 0 - 1 * nth 2 x 0 - 3 * nth 3 x 0])
    [[0; 0; 0; 0]; [0; 0; 0; 0]; [0; 0; 0 / 2; -1 / 2]; [0; 0; 1 / 2; 3 / 2]].
Proof. exact (C85_gle2 sexpr s_eval s_vars q_fine SAdd SMul SDiv SOpp (SNum 0) (SNum 1) SVar q_sqrt s_diff q_eqn (SNum 2) (SNum 5) (SNum 7) (SNum 0) (SNum (-1)) (SNum 1) (SNum 3) 2 5 7 0 (-1) 1 3 s_is0 (q_number 2) nonzero2 (q_number 5) (q_number 7) (q_number 0) (q_number (-1)) (q_number 1) (q_number 3) (SMul sx sx) _ _ (q_square 0) eq_refl). Qed.

(** C85: without the parameters of any of the three cases a ValueError is raised; also if A is found to be singular, although its inverse is only printed. *)
Theorem C85_gle_raises : forall E e_add e_mul e_div e_opp e_1 e_var e_diff beta lambda alpha l1 l2 a11 a12 a21 a22 e_is0, forall Vx, generalized_langevin E e_add e_mul e_div e_opp e_1 e_var e_diff e_is0 beta Vx (Nothing E) = Throw "ValueError"%string /\
  (e_is0 alpha = true -> generalized_langevin E e_add e_mul e_div e_opp e_1 e_var e_diff e_is0 beta Vx (Aux1 E lambda alpha) = Throw "ValueError"%string) /\
  (e_is0 (e_sub E e_add e_opp (e_mul a11 a22) (e_mul a12 a21)) = true -> generalized_langevin E e_add e_mul e_div e_opp e_1 e_var e_diff e_is0 beta Vx (Aux2 E l1 l2 a11 a12 a21 a22) = Throw "ValueError"%string).
Proof. exact (fun E e_add e_mul e_div e_opp e_1 e_var e_diff beta lambda alpha l1 l2 a11 a12 a21 a22 e_is0 => gle_raises e_add e_mul e_div e_opp e_1 e_var e_diff beta lambda alpha l1 l2 a11 a12 a21 a22 e_is0). Qed.
Print Assumptions C85_gle_raises.
Example C85_gle_raises_example : generalized_langevin sexpr SAdd SMul SDiv SOpp (SNum 1) SVar s_diff s_is0 (SNum 2) (SMul sx sx) (Aux1 sexpr (SNum 5) (SNum 0)) = Throw "ValueError"%string.
Proof. apply (C85_gle_raises sexpr SAdd SMul SDiv SOpp (SNum 1) SVar s_diff (SNum 2) (SNum 5) (SNum 0) sx sx sx sx sx sx s_is0 (SMul sx sx)). cbn. destruct (Req_EM_T 0 0); [reflexivity|contradiction]. Qed.

(** C85: a generator maps constant functions to 0. *)
Theorem C85_constant : forall E (eval : E -> (nat -> R) -> R), forall dim l drift diff, generator eval dim l drift diff -> forall c D, twice dim (fun _ => c) D -> forall x, length x = dim -> apply_to eval l D x = 0.
Proof. exact (fun E eval => generator_constant eval). Qed.
Print Assumptions C85_constant.
Example C85_constant_example : forall x, length x = 1%nat -> apply_to s_eval (overdamped_backward sexpr SMul SDiv SOpp (SNum 1) s_diff (SNum 2) (SMul sx sx)) (s_D (SNum 7)) x = 0.
Proof. apply (C85_constant sexpr s_eval 1%nat _ _ _ C85_overdamped_example 7). apply (s_twice 1 (SNum 7)); [cbn; auto|vars]. Qed.

(** C85: a generator L satisfies L(f g) = f L g + g L f + 2 Γ(f, g), with the carré du champ Γ of its diffusion matrix. *)
Theorem C85_product : forall E (eval : E -> (nat -> R) -> R), forall dim l drift diff, generator eval dim l drift diff -> forall f f' Df Df' D, twice dim f Df -> twice dim f' Df' -> twice dim (fun x => f x * f' x) D ->
  forall x, length x = dim -> apply_to eval l D x = f x * apply_to eval l Df' x + f' x * apply_to eval l Df x + champ2 dim diff Df Df' x.
Proof. exact (fun E eval => generator_product eval). Qed.
Print Assumptions C85_product.
Example C85_product_example : let L := overdamped_backward sexpr SMul SDiv SOpp (SNum 1) s_diff (SNum 2) (SMul sx sx) in
  apply_to s_eval L (s_D (SMul sx (SExp sx))) [3] = 3 * apply_to s_eval L (s_D (SExp sx)) [3] + exp 3 * apply_to s_eval L (s_D sx) [3] + champ2 1 [[1 / 2]] (s_D sx) (s_D (SExp sx)) [3].
Proof. cbv zeta. apply (C85_product sexpr s_eval 1%nat _ _ _ C85_overdamped_example (fun x => nth 0 x 0) (fun x => exp (nth 0 x 0))); [apply (s_twice 1 sx)|apply (s_twice 1 (SExp sx))|apply (s_twice 1 (SMul sx (SExp sx)))|reflexivity]; first [cbn; auto; fail|vars]. Qed.

(** C86: the Gibbs measure μ = exp(-β V) is invariant for Overdamped.backward: μ L f is the derivative of μ f'/β. *)
Theorem C86_overdamped : forall E (eval : E -> (nat -> R) -> R) free_vars fine e_add e_mul e_div e_opp e_0 e_1 e_var e_sqrt e_diff, sympy_eqn eval free_vars fine e_add e_mul e_div e_opp e_0 e_1 e_var e_sqrt e_diff ->
  forall beta b, number eval free_vars fine beta b -> b <> 0 ->
  forall V v v' f D, potential eval free_vars fine V 0 v v' -> twice 1 f D ->
  divergence 1 [fun x => exp (- (b * v (nth 0 x 0))) * D [1%nat] x / b]
    (fun x => exp (- (b * v (nth 0 x 0))) * apply_to eval (overdamped_backward E e_mul e_div e_opp e_1 e_diff beta V) D x).
Proof. intros E eval free_vars fine e_add e_mul e_div e_opp e_0 e_1 e_var e_sqrt e_diff (HA & HV & HF & HC) beta b Hb Hb0. exact (overdamped_invariant eval free_vars fine e_add e_mul e_div e_opp e_0 e_1 e_var e_sqrt e_diff HA HV HF HC beta b Hb Hb0). Qed.
Print Assumptions C86_overdamped.

Example C86_overdamped_example : divergence 1 [fun x => exp (- (2 * (nth 0 x 0 * nth 0 x 0))) * s_D (SExp sx) [1%nat] x / 2]
  (fun x => exp (- (2 * (nth 0 x 0 * nth 0 x 0))) * apply_to s_eval (overdamped_backward sexpr SMul SDiv SOpp (SNum 1) s_diff (SNum 2) (SMul sx sx)) (s_D (SExp sx)) x).
Proof. apply (C86_overdamped sexpr s_eval s_vars q_fine SAdd SMul SDiv SOpp (SNum 0) (SNum 1) SVar q_sqrt s_diff q_eqn (SNum 2) 2 (q_number 2) nonzero2 (SMul sx sx) _ _ (fun x => exp (nth 0 x 0)) _ (q_square 0)). apply (s_twice 1 (SExp sx)); [cbn; auto|vars]. Qed.

(** C86: exp(-β (x²/2 + V(y))) is invariant for Langevin.backward: the measure times L f is a divergence. *)
Theorem C86_langevin : forall E (eval : E -> (nat -> R) -> R) free_vars fine e_add e_mul e_div e_opp e_0 e_1 e_var e_sqrt e_diff, sympy_eqn eval free_vars fine e_add e_mul e_div e_opp e_0 e_1 e_var e_sqrt e_diff ->
  forall beta gamma b g, number eval free_vars fine beta b -> b <> 0 -> number eval free_vars fine gamma g ->
  forall Vy v v' f D, potential eval free_vars fine Vy 1 v v' -> twice 2 f D ->
  divergence 2 [(fun x => exp (- (b * (nth 0 x 0 * nth 0 x 0 / 2 + v (nth 1 x 0)))) * (- v' (nth 1 x 0) * f x + g / b * D [1; 0]%nat x));
                (fun x => exp (- (b * (nth 0 x 0 * nth 0 x 0 / 2 + v (nth 1 x 0)))) * (nth 0 x 0 * f x))]
    (fun x => exp (- (b * (nth 0 x 0 * nth 0 x 0 / 2 + v (nth 1 x 0)))) * apply_to eval (langevin_backward E e_mul e_div e_opp e_1 e_var e_diff gamma beta Vy) D x).
Proof. intros E eval free_vars fine e_add e_mul e_div e_opp e_0 e_1 e_var e_sqrt e_diff (HA & HV & HF & HC) beta gamma b g Hb Hb0 Hg. exact (langevin_invariant eval free_vars fine e_add e_mul e_div e_opp e_0 e_1 e_var e_sqrt e_diff HA HV HF HC beta gamma b g Hb Hb0 Hg). Qed.
Print Assumptions C86_langevin.

Example C86_langevin_example : exists J, divergence 2 J (fun x => exp (- (2 * (nth 0 x 0 * nth 0 x 0 / 2 + nth 1 x 0 * nth 1 x 0))) * apply_to s_eval (langevin_backward sexpr SMul SDiv SOpp (SNum 1) SVar s_diff (SNum 3) (SNum 2) (SMul sy sy)) (s_D (SExp sx)) x).
Proof. eexists. apply (C86_langevin sexpr s_eval s_vars q_fine SAdd SMul SDiv SOpp (SNum 0) (SNum 1) SVar q_sqrt s_diff q_eqn (SNum 2) (SNum 3) 2 3 (q_number 2) nonzero2 (q_number 3) (SMul sy sy) _ _ (fun x => exp (nth 0 x 0)) _ (q_square 1)). apply (s_twice 2 (SExp sx)); [cbn; auto|vars]. Qed.

(** C86: the same for Generalized_Langevin.backward with the parameter γ. *)
Theorem C86_gle_friction : forall E (eval : E -> (nat -> R) -> R) free_vars fine e_add e_mul e_div e_opp e_0 e_1 e_var e_sqrt e_diff, sympy_eqn eval free_vars fine e_add e_mul e_div e_opp e_0 e_1 e_var e_sqrt e_diff ->
  forall beta gamma b g (e_is0 : E -> bool), number eval free_vars fine beta b -> b <> 0 -> number eval free_vars fine gamma g ->
  forall Vx v v' f D, potential eval free_vars fine Vx 0 v v' -> twice 2 f D -> exists L, generalized_langevin E e_add e_mul e_div e_opp e_1 e_var e_diff e_is0 beta Vx (Friction E gamma) = Ok (2%nat, L) /\
  divergence 2 [(fun x => exp (- (b * (nth 1 x 0 * nth 1 x 0 / 2 + v (nth 0 x 0)))) * (nth 1 x 0 * f x));
                (fun x => exp (- (b * (nth 1 x 0 * nth 1 x 0 / 2 + v (nth 0 x 0)))) * (- v' (nth 0 x 0) * f x + g / b * D [0; 1]%nat x))]
    (fun x => exp (- (b * (nth 1 x 0 * nth 1 x 0 / 2 + v (nth 0 x 0)))) * apply_to eval L D x).
Proof. intros E eval free_vars fine e_add e_mul e_div e_opp e_0 e_1 e_var e_sqrt e_diff (HA & HV & HF & HC) beta gamma b g e_is0 Hb Hb0 Hg. exact (gle_friction_invariant eval free_vars fine e_add e_mul e_div e_opp e_0 e_1 e_var e_sqrt e_diff HA HV HF HC beta gamma b g Hb Hb0 Hg e_is0). Qed.
Print Assumptions C86_gle_friction.

Example C86_gle_friction_example : exists L J, generalized_langevin sexpr SAdd SMul SDiv SOpp (SNum 1) SVar s_diff s_is0 (SNum 2) (SMul sx sx) (Friction sexpr (SNum 3)) = Ok (2%nat, L) /\
  divergence 2 J (fun x => exp (- (2 * (nth 1 x 0 * nth 1 x 0 / 2 + nth 0 x 0 * nth 0 x 0))) * apply_to s_eval L (s_D (SExp sx)) x).
Proof.
  destruct (C86_gle_friction sexpr s_eval s_vars q_fine SAdd SMul SDiv SOpp (SNum 0) (SNum 1) SVar q_sqrt s_diff q_eqn (SNum 2) (SNum 3) 2 3 s_is0 (q_number 2) nonzero2 (q_number 3) (SMul sx sx) _ _ (fun x => exp (nth 0 x 0)) (s_D (SExp sx)) (q_square 0)) as (L & HL & HJ); [apply (s_twice 2 (SExp sx)); [cbn; auto|vars]|].
  exists L. eexists. split; [exact HL|exact HJ].
Qed.

(** C86: exp(-β (V(x) + (y² + z²)/2)) is invariant with one auxiliary process, whatever λ and α. *)
Theorem C86_gle1 : forall E (eval : E -> (nat -> R) -> R) free_vars fine e_add e_mul e_div e_opp e_0 e_1 e_var e_sqrt e_diff, sympy_eqn eval free_vars fine e_add e_mul e_div e_opp e_0 e_1 e_var e_sqrt e_diff ->
  forall beta lambda alpha b la al (e_is0 : E -> bool), number eval free_vars fine beta b -> b <> 0 -> number eval free_vars fine lambda la -> number eval free_vars fine alpha al ->
  forall Vx v v' f D, potential eval free_vars fine Vx 0 v v' -> e_is0 alpha = false -> twice 3 f D -> exists L, generalized_langevin E e_add e_mul e_div e_opp e_1 e_var e_diff e_is0 beta Vx (Aux1 E lambda alpha) = Ok (3%nat, L) /\
  divergence 3 [(fun x => exp (- (b * ((nth 1 x 0 * nth 1 x 0 + nth 2 x 0 * nth 2 x 0) / 2 + v (nth 0 x 0)))) * (nth 1 x 0 * f x));
                (fun x => exp (- (b * ((nth 1 x 0 * nth 1 x 0 + nth 2 x 0 * nth 2 x 0) / 2 + v (nth 0 x 0)))) * ((- v' (nth 0 x 0) + la * nth 2 x 0) * f x));
                (fun x => exp (- (b * ((nth 1 x 0 * nth 1 x 0 + nth 2 x 0 * nth 2 x 0) / 2 + v (nth 0 x 0)))) * (- la * nth 1 x 0 * f x + al / b * D [0; 0; 1]%nat x))]
    (fun x => exp (- (b * ((nth 1 x 0 * nth 1 x 0 + nth 2 x 0 * nth 2 x 0) / 2 + v (nth 0 x 0)))) * apply_to eval L D x).
Proof. intros E eval free_vars fine e_add e_mul e_div e_opp e_0 e_1 e_var e_sqrt e_diff (HA & HV & HF & HC) beta lambda alpha b la al e_is0 Hb Hb0 Hla Hal. exact (gle1_invariant eval free_vars fine e_add e_mul e_div e_opp e_0 e_1 e_var e_sqrt e_diff HA HV HF HC beta lambda alpha b la al Hb Hb0 Hla Hal e_is0). Qed.
Print Assumptions C86_gle1.

Example C86_gle1_example : exists L J, generalized_langevin sexpr SAdd SMul SDiv SOpp (SNum 1) SVar s_diff s_is0 (SNum 2) (SMul sx sx) (Aux1 sexpr (SNum 5) (SNum 3)) = Ok (3%nat, L) /\
  divergence 3 J (fun x => exp (- (2 * ((nth 1 x 0 * nth 1 x 0 + nth 2 x 0 * nth 2 x 0) / 2 + nth 0 x 0 * nth 0 x 0))) * apply_to s_eval L (s_D (SExp sx)) x).
Proof.
  destruct (C86_gle1 sexpr s_eval s_vars q_fine SAdd SMul SDiv SOpp (SNum 0) (SNum 1) SVar q_sqrt s_diff q_eqn (SNum 2) (SNum 5) (SNum 3) 2 5 3 s_is0 (q_number 2) nonzero2 (q_number 5) (q_number 3) (SMul sx sx) _ _ (fun x => exp (nth 0 x 0)) (s_D (SExp sx)) (q_square 0) is0_3) as (L & HL & HJ); [apply (s_twice 3 (SExp sx)); [cbn; auto|vars]|].
  exists L. eexists. split; [exact HL|exact HJ].
Qed.

(** C86: and with two auxiliary processes, whatever λ1, λ2 and A. *)
Theorem C86_gle2 : forall E (eval : E -> (nat -> R) -> R) free_vars fine e_add e_mul e_div e_opp e_0 e_1 e_var e_sqrt e_diff, sympy_eqn eval free_vars fine e_add e_mul e_div e_opp e_0 e_1 e_var e_sqrt e_diff ->
  forall beta l1 l2 a11 a12 a21 a22 b r1 r2 q11 q12 q21 q22 (e_is0 : E -> bool), number eval free_vars fine beta b -> b <> 0 -> number eval free_vars fine l1 r1 -> number eval free_vars fine l2 r2 -> number eval free_vars fine a11 q11 -> number eval free_vars fine a12 q12 -> number eval free_vars fine a21 q21 -> number eval free_vars fine a22 q22 ->
  forall Vx v v' f D, potential eval free_vars fine Vx 0 v v' -> e_is0 (e_sub E e_add e_opp (e_mul a11 a22) (e_mul a12 a21)) = false -> twice 4 f D -> exists L, generalized_langevin E e_add e_mul e_div e_opp e_1 e_var e_diff e_is0 beta Vx (Aux2 E l1 l2 a11 a12 a21 a22) = Ok (4%nat, L) /\
  divergence 4 [(fun x => exp (- (b * ((nth 1 x 0 * nth 1 x 0 + nth 2 x 0 * nth 2 x 0 + nth 3 x 0 * nth 3 x 0) / 2 + v (nth 0 x 0)))) * (nth 1 x 0 * f x));
                (fun x => exp (- (b * ((nth 1 x 0 * nth 1 x 0 + nth 2 x 0 * nth 2 x 0 + nth 3 x 0 * nth 3 x 0) / 2 + v (nth 0 x 0)))) * ((- v' (nth 0 x 0) + r1 * nth 2 x 0 + r2 * nth 3 x 0) * f x));
                (fun x => exp (- (b * ((nth 1 x 0 * nth 1 x 0 + nth 2 x 0 * nth 2 x 0 + nth 3 x 0 * nth 3 x 0) / 2 + v (nth 0 x 0)))) * (- r1 * nth 1 x 0 * f x + (q11 * D [0; 0; 1; 0]%nat x + q21 * D [0; 0; 0; 1]%nat x) / b
                           ));
                (fun x => exp (- (b * ((nth 1 x 0 * nth 1 x 0 + nth 2 x 0 * nth 2 x 0 + nth 3 x 0 * nth 3 x 0) / 2 + v (nth 0 x 0)))) * (- r2 * nth 1 x 0 * f x + (q12 * D [0; 0; 1; 0]%nat x + q22 * D [0; 0; 0; 1]%nat x) / b
                           ))]
    (fun x => exp (- (b * ((nth 1 x 0 * nth 1 x 0 + nth 2 x 0 * nth 2 x 0 + nth 3 x 0 * nth 3 x 0) / 2 + v (nth 0 x 0)))) * apply_to eval L D x).
Proof. intros E eval free_vars fine e_add e_mul e_div e_opp e_0 e_1 e_var e_sqrt e_diff (HA & HV & HF & HC) beta l1 l2 a11 a12 a21 a22 b r1 r2 q11 q12 q21 q22 e_is0 Hb Hb0 H1 H2 H11 H12 H21 H22. exact (gle2_invariant eval free_vars fine e_add e_mul e_div e_opp e_0 e_1 e_var e_sqrt e_diff HA HV HF HC beta l1 l2 a11 a12 a21 a22 b r1 r2 q11 q12 q21 q22 Hb Hb0 H1 H2 H11 H12 H21 H22 e_is0). Qed.
Print Assumptions C86_gle2.

Example C86_gle2_example : exists L J, generalized_langevin sexpr SAdd SMul SDiv SOpp (SNum 1) SVar s_diff s_is0 (SNum 2) (SMul sx sx) (Aux2 sexpr (SNum 5) (SNum 7) (SNum 0) (SNum (-1)) (SNum 1) (SNum 3)) = Ok (4%nat, L) /\
  divergence 4 J (fun x => exp (- (2 * ((nth 1 x 0 * nth 1 x 0 + nth 2 x 0 * nth 2 x 0 + nth 3 x 0 * nth 3 x 0) / 2 + nth 0 x 0 * nth 0 x 0))) * apply_to s_eval L (s_D (SExp sx)) x).
Proof.
  destruct (C86_gle2 sexpr s_eval s_vars q_fine SAdd SMul SDiv SOpp (SNum 0) (SNum 1) SVar q_sqrt s_diff q_eqn (SNum 2) (SNum 5) (SNum 7) (SNum 0) (SNum (-1)) (SNum 1) (SNum 3) 2 5 7 0 (-1) 1 3 s_is0 (q_number 2) nonzero2 (q_number 5) (q_number 7) (q_number 0) (q_number (-1)) (q_number 1) (q_number 3) (SMul sx sx) _ _ (fun x => exp (nth 0 x 0)) (s_D (SExp sx)) (q_square 0) eq_refl) as (L & HL & HJ); [apply (s_twice 4 (SExp sx)); [cbn; auto|vars]|].
  exists L. eexists. split; [exact HL|exact HJ].
Qed.

(** C86: Fokker_Planck_1d.equation is the adjoint of Overdamped.backward: h L f - f L* h is the derivative of h f'/β - f (V' h + h'/β). *)
Theorem C86_adjoint : forall E (eval : E -> (nat -> R) -> R) free_vars fine e_add e_mul e_div e_opp e_0 e_1 e_var e_sqrt e_diff, sympy_eqn eval free_vars fine e_add e_mul e_div e_opp e_0 e_1 e_var e_sqrt e_diff ->
  forall beta b, number eval free_vars fine beta b -> b <> 0 ->
  forall V v v' f h Df Dh, potential eval free_vars fine V 0 v v' -> twice 1 f Df -> twice 1 h Dh ->
  divergence 1 [fun x => h x * Df [1%nat] x / b - f x * (v' (nth 0 x 0) * h x + Dh [1%nat] x / b)]
    (fun x => h x * apply_to eval (overdamped_backward E e_mul e_div e_opp e_1 e_diff beta V) Df x - f x * apply_to eval (fokker_planck_1d E e_mul e_div e_1 e_diff beta V) Dh x).
Proof. intros E eval free_vars fine e_add e_mul e_div e_opp e_0 e_1 e_var e_sqrt e_diff (HA & HV & HF & HC) beta b Hb Hb0. exact (fp1_overdamped_adjoint eval free_vars fine e_add e_mul e_div e_opp e_0 e_1 e_var e_sqrt e_diff HA HV HF HC beta b Hb Hb0). Qed.
Print Assumptions C86_adjoint.

Example C86_adjoint_example : exists J, divergence 1 J (fun x => nth 0 x 0 * apply_to s_eval (overdamped_backward sexpr SMul SDiv SOpp (SNum 1) s_diff (SNum 2) (SMul sx sx)) (s_D (SExp sx)) x
  - exp (nth 0 x 0) * apply_to s_eval (fokker_planck_1d sexpr SMul SDiv (SNum 1) s_diff (SNum 2) (SMul sx sx)) (s_D sx) x).
Proof. eexists. apply (C86_adjoint sexpr s_eval s_vars q_fine SAdd SMul SDiv SOpp (SNum 0) (SNum 1) SVar q_sqrt s_diff q_eqn (SNum 2) 2 (q_number 2) nonzero2 (SMul sx sx) _ _ (fun x => exp (nth 0 x 0)) (fun x => nth 0 x 0) _ _ (q_square 0)); [apply (s_twice 1 (SExp sx))|apply (s_twice 1 sx)]; first [cbn; auto; fail|vars]. Qed.

(** C86: with β = 1 and a potential with the derivative y, Langevin.forward is the adjoint of Langevin.backward. *)
Theorem C86_langevin_adjoint : forall E (eval : E -> (nat -> R) -> R) free_vars fine e_add e_mul e_div e_opp e_0 e_1 e_var e_sqrt e_diff, sympy_eqn eval free_vars fine e_add e_mul e_div e_opp e_0 e_1 e_var e_sqrt e_diff ->
  forall beta gamma b g, number eval free_vars fine beta b -> b <> 0 -> number eval free_vars fine gamma g ->
  forall V v f h Df Dh, b = 1 -> potential eval free_vars fine V 1 v (fun t => t) -> twice 2 f Df -> twice 2 h Dh ->
  divergence 2 [(fun x => g * (h x * Df [1; 0]%nat x) - f x * (nth 1 x 0 * h x + g * (nth 0 x 0 * h x + Dh [1; 0]%nat x))); (fun x => f x * (nth 0 x 0 * h x))]
    (fun x => h x * apply_to eval (langevin_backward E e_mul e_div e_opp e_1 e_var e_diff gamma beta V) Df x - f x * apply_to eval (langevin_forward E e_mul e_opp e_1 e_var e_diff gamma) Dh x).
Proof. intros E eval free_vars fine e_add e_mul e_div e_opp e_0 e_1 e_var e_sqrt e_diff (HA & HV & HF & HC) beta gamma b g Hb Hb0 Hg. exact (langevin_adjoint eval free_vars fine e_add e_mul e_div e_opp e_0 e_1 e_var e_sqrt e_diff HA HV HF HC beta gamma b g Hb Hb0 Hg). Qed.
Print Assumptions C86_langevin_adjoint.

Example C86_langevin_adjoint_example : exists J, divergence 2 J (fun x => nth 0 x 0 * apply_to s_eval (langevin_backward sexpr SMul SDiv SOpp (SNum 1) SVar s_diff (SNum 3) (SNum 1) (SMul (SNum (1 / 2)) (SMul sy sy))) (s_D (SExp sx)) x
  - exp (nth 0 x 0) * apply_to s_eval (langevin_forward sexpr SMul SOpp (SNum 1) SVar s_diff (SNum 3)) (s_D sx) x).
Proof. eexists. apply (C86_langevin_adjoint sexpr s_eval s_vars q_fine SAdd SMul SDiv SOpp (SNum 0) (SNum 1) SVar q_sqrt s_diff q_eqn (SNum 1) (SNum 3) 1 3 (q_number 1) nonzero1 (q_number 3) (SMul (SNum (1 / 2)) (SMul sy sy)) _ (fun x => exp (nth 0 x 0)) (fun x => nth 0 x 0) _ _ eq_refl (q_half 1)); [apply (s_twice 2 (SExp sx))|apply (s_twice 2 sx)]; first [cbn; auto; fail|vars]. Qed.

(** C86: map_operator(L, f, w) maps f to L(w f)/w, for every operator L, factor w without zeros and smooth function f. *)
Theorem C86_map : forall E (eval : E -> (nat -> R) -> R) free_vars fine e_add e_mul e_div e_opp e_0 e_1 e_var e_sqrt e_diff, sympy_eqn eval free_vars fine e_add e_mul e_div e_opp e_0 e_1 e_var e_sqrt e_diff ->
  forall dim l w f D D' x, smooth dim f D -> all_derivatives dim (fun x => eval w (fun d => nth d x 0) * f x) D' -> (forall c n, In (c, n) l -> length n = dim) ->
  fine w -> incl (free_vars w) (seq 0 dim) -> eval w (fun d => nth d x 0) <> 0 -> length x = dim ->
  apply_to eval (map_operator E e_mul e_div e_diff dim l w) D x = apply_to eval l D' x / eval w (fun d => nth d x 0).
Proof. intros E eval free_vars fine e_add e_mul e_div e_opp e_0 e_1 e_var e_sqrt e_diff (HA & HV & HF & HC). exact (map_value eval free_vars fine e_add e_mul e_div e_opp e_0 e_diff HA HV HF). Qed.
Print Assumptions C86_map.
Lemma s_all1 : forall e, q_fine e -> incl (s_vars e) (seq 0 1) -> all_derivatives 1 (fun x => s_eval e (fun d => nth d x 0)) (s_D e).
Proof.
  intros e Hf Hv n Hn. destruct n as [|k [|? ?]]; try discriminate Hn. induction k as [|k IH]; [intros x Hx; reflexivity|]. exists (s_D e [k]). split; [apply IH; reflexivity|]. apply (proj2 (s_smooth 1 e Hf Hv) [k] 0%nat eq_refl). lia.
Qed.
Example C86_map_example : apply_to s_eval (map_operator sexpr SMul SDiv s_diff 1 [(sx, [2%nat])] (SExp sx)) (s_D sx) [3] = apply_to s_eval [(sx, [2%nat])] (s_D (SMul (SExp sx) sx)) [3] / exp 3.
Proof.
  apply (C86_map sexpr s_eval s_vars q_fine SAdd SMul SDiv SOpp (SNum 0) (SNum 1) SVar q_sqrt s_diff q_eqn 1 [(sx, [2%nat])] (SExp sx) (fun x => nth 0 x 0) (s_D sx) (s_D (SMul (SExp sx) sx)) [3]).
  - apply (s_smooth 1 sx); [cbn; auto|vars].
  - apply (s_all1 (SMul (SExp sx) sx)); [cbn; auto|vars].
  - intros c n [H|[]]. injection H as <- <-. reflexivity.
  - exact I.
  - vars.
  - cbn. apply Rgt_not_eq, exp_pos.
  - reflexivity.
Qed.

(** C86: map_operator with the Gibbs measure turns Fokker_Planck_1d.equation into Overdamped.backward. *)
Theorem C86_mapped : forall E (eval : E -> (nat -> R) -> R) free_vars fine e_add e_mul e_div e_opp e_0 e_1 e_var e_sqrt e_diff, sympy_eqn eval free_vars fine e_add e_mul e_div e_opp e_0 e_1 e_var e_sqrt e_diff ->
  forall beta b, number eval free_vars fine beta b -> b <> 0 ->
  forall V v v' w f D x, potential eval free_vars fine V 0 v v' -> fine w -> incl (free_vars w) [0%nat] -> (forall env, eval w env = exp (- (b * v (env 0%nat)))) -> smooth 1 f D -> length x = 1%nat ->
  apply_to eval (map_operator E e_mul e_div e_diff 1 (fokker_planck_1d E e_mul e_div e_1 e_diff beta V) w) D x = apply_to eval (overdamped_backward E e_mul e_div e_opp e_1 e_diff beta V) D x.
Proof. intros E eval free_vars fine e_add e_mul e_div e_opp e_0 e_1 e_var e_sqrt e_diff (HA & HV & HF & HC) beta b Hb Hb0. exact (fp1_mapped eval free_vars fine e_add e_mul e_div e_opp e_0 e_1 e_var e_sqrt e_diff HA HV HF HC beta b Hb Hb0). Qed.
Print Assumptions C86_mapped.

Example C86_mapped_example : apply_to s_eval (map_operator sexpr SMul SDiv s_diff 1 (fokker_planck_1d sexpr SMul SDiv (SNum 1) s_diff (SNum 2) (SMul sx sx)) (SExp (SOpp (SMul (SNum 2) (SMul sx sx))))) (s_D (SExp sx)) [3] =
  apply_to s_eval (overdamped_backward sexpr SMul SDiv SOpp (SNum 1) s_diff (SNum 2) (SMul sx sx)) (s_D (SExp sx)) [3].
Proof. apply (C86_mapped sexpr s_eval s_vars q_fine SAdd SMul SDiv SOpp (SNum 0) (SNum 1) SVar q_sqrt s_diff q_eqn (SNum 2) 2 (q_number 2) nonzero2 (SMul sx sx) _ _ (SExp (SOpp (SMul (SNum 2) (SMul sx sx)))) (fun x => exp (nth 0 x 0)) _ [3] (q_square 0)); [cbn; auto|vars|reflexivity|apply (s_smooth 1 (SExp sx)); [cbn; auto|vars]|reflexivity]. Qed.
