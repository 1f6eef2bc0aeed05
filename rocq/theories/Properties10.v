(** Properties C54 and C57: splitting a differential operator, call statistics. *)
From Coq Require Import String List Bool Arith ZArith Lia.
From Verif Require Import Base PyBase Num LinSpec Facts2 SplitSpec OpModel OpSpec OpFacts StatsModel StatsSpec StatsFacts.
Import ListNotations.
Local Open Scope string_scope. Local Open Scope list_scope. Local Open Scope nat_scope.

(** C54: an operator is a sum of terms [c D^n]; several may have the same derivative.  If no derivative has an order above 5, Operator.split maps derivatives to their
    coefficients, and the derivatives it does not mention have the coefficient 0; so the operator is the sum of the [c D^n] in the result. *)
Theorem C54_split : forall (N : num), num_laws N -> forall E (eval : E -> (nat -> N) -> N) e_add e_mul e_0 e_mono simplify is0, sympy_lin eval e_add e_mul e_0 e_mono simplify is0 ->
  forall dim op, (forall c n, In (c, n) op -> length n = dim /\ order n <= 5) ->
  exists r, op_split E e_add e_mul e_0 e_mono simplify is0 dim op = Ok r /\ NoDup (map fst r) /\
    (forall n e, In (n, e) r -> length n = dim /\ order n <= 5 /\ forall env, eval e env = coefficient eval op n env) /\
    (forall n, ~ In n (map fst r) -> forall env, coefficient eval op n env = n0) /\
    forall deriv env, op_value eval op deriv env = op_value eval (map (fun '(n, e) => (e, n)) r) deriv env.
Proof. exact op_split_ok. Qed.
Print Assumptions C54_split.
(** A derivative of a higher order raises ValueError. *)
Theorem C54_raises : forall (N : num), num_laws N -> forall E (eval : E -> (nat -> N) -> N) e_add e_mul e_0 e_mono simplify is0, sympy_lin eval e_add e_mul e_0 e_mono simplify is0 ->
  forall dim op c n, (forall c n, In (c, n) op -> length n = dim) -> In (c, n) op -> 5 < order n ->
  op_split E e_add e_mul e_0 e_mono simplify is0 dim op = Throw "ValueError".
Proof. exact op_split_raises. Qed.
Print Assumptions C54_raises.

(** 2 f_xxyy + x f_y + 7 f_y + 3 f_xxxxx. *)
Definition ex_mono (k : list nat) : expr := if forallb (Nat.eqb 0) k then EInt 1 else EVar 0.
Definition ex_is0 (e : expr) : bool := match e with EInt 0 => true | _ => false end.
Definition ex_op : list (expr * list nat) := [(EInt 2, [2; 2]); (EVar 0, [0; 1]); (EInt 7, [0; 1]); (EInt 3, [5; 0])].
Example C54_split_example : @sympy_lin num_Z expr x_eval EAdd EMul (EInt 0) ex_mono (fun e => e) ex_is0 /\ (forall c n, In (c, n) ex_op -> length n = 2 /\ order n <= 5) /\
  exists r, op_split expr EAdd EMul (EInt 0) ex_mono (fun e => e) ex_is0 2 ex_op = Ok r /\ map (fun '(n, e) => (n, x_eval e (fun _ => 10%Z))) r = [([0; 1], 17%Z); ([2; 2], 2%Z); ([5; 0], 3%Z)].
Proof.
  split; [|split].
  - split; try reflexivity.
    + intros k env. unfold ex_mono. replace (forallb (Nat.eqb 0) (repeat 0 k)) with true; [reflexivity|]. symmetry. induction k; [reflexivity|exact IHk].
    + intros e H env. destruct e as [[| |]| | | |]; try discriminate. reflexivity.
  - intros c n H. cbn in H. repeat (destruct H as [H|H]; [injection H as <- <-; cbn; lia|]). destruct H.
  - eexists. split; vm_compute; reflexivity.
Qed.
Example C54_raises_example : op_split expr EAdd EMul (EInt 0) ex_mono (fun e => e) ex_is0 2 (ex_op ++ [(EInt 1, [3; 3])]) = Throw "ValueError".
Proof. vm_compute. reflexivity. Qed.

(** C57: every piece of code has one course of events; the call counters grow by the numbers of calls that return. *)
Theorem C57_counters : forall c, (exists l ok, happens c l ok) /\ forall l ok, happens c l ok -> forall g, exists g', run c g = (g', ok) /\ forall key, calls key (g_stats g') = calls key (g_stats g) + returns key l.
Proof. exact counters_exact. Qed.
Print Assumptions C57_counters.
(** The indentation is back to its initial value if no decorated call raises, and grows by one with each one that does, caught or not. *)
Theorem C57_indent : forall c l ok, happens c l ok -> forall g, g_indent (fst (run c g)) = g_indent g + raises l.
Proof. exact indent_exact. Qed.
Print Assumptions C57_indent.
Theorem C57_balanced : forall c l ok, happens c l ok -> (forall key, ~ In (Raised key) l) -> forall g, g_indent (fst (run c g)) = g_indent g.
Proof. exact indent_balanced. Qed.
Print Assumptions C57_balanced.
(** So the property is false: a program that catches an exception and returns leaves another indentation behind. *)
Theorem C57_refuted : ~ forall c g, snd (run c g) = true -> g_indent (fst (run c g)) = g_indent g.
Proof. exact indent_refuted. Qed.
Print Assumptions C57_refuted.
(** discretize calls transform twice; the second one raises in a third, which is caught outside. *)
Definition ex_code : code := Try "discretize" (Call "transform" Return (Call "transform" (Call "third" Raise Return) Return)) (Call "varf" Return Return).
Example C57_counters_example : happens ex_code [Returned "transform"; Raised "third"; Raised "transform"; Raised "discretize"; Returned "varf"] true /\
  run ex_code (Glob [] 0) = (Glob [("transform", 1); ("varf", 1)] 3, true).
Proof.
  split; [|reflexivity]. change [Returned "transform"; Raised "third"; Raised "transform"; Raised "discretize"; Returned "varf"] with (([] ++ Returned "transform" :: (([] ++ [Raised "third"]) ++ [Raised "transform"])) ++ Raised "discretize" :: ([] ++ Returned "varf" :: [])).
  apply h_try_raise; [apply h_call_ok; [constructor|apply h_call_raise, h_call_raise; constructor]|apply h_call_ok; constructor].
Qed.
