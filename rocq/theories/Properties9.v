(** Properties C51, C52 and C53: partitions of the directions, and functions as products. *)
From Coq Require Import String List Bool Arith ZArith Sorted Permutation Lia.
From Verif Require Import Base PyBase Num LinSpec Facts2 PartModel PartSpec PartFacts SeriesModel SplitModel SplitSpec SplitFacts.
Import ListNotations.
Local Open Scope string_scope. Local Open Scope list_scope. Local Open Scope nat_scope.

(** C51: whatever the orders in which Python enumerates sets, finest_common terminates and its result is the finest partition that
    both arguments refine. *)
Theorem C51_finest_common : forall order, (forall k l, Permutation (order k l) l) -> forall X P Q, partition X P -> partition X Q ->
  exists r, finest_common order P Q = Ok r /\ partition X r /\ refines P r /\ refines Q r /\
    forall R, partition X R -> refines P R -> refines Q R -> refines r R.
Proof. exact finest_common_ok. Qed.
Print Assumptions C51_finest_common.
Theorem C51_order_irrelevant : forall order1 order2, (forall k l, Permutation (order1 k l) l) -> (forall k l, Permutation (order2 k l) l) ->
  forall X P Q, partition X P -> partition X Q -> exists r1 r2, finest_common order1 P Q = Ok r1 /\ finest_common order2 P Q = Ok r2 /\
    forall b, In b r1 -> b <> [] -> exists c, In c r2 /\ forall x, In x b <-> In x c.
Proof. exact finest_order. Qed.
Print Assumptions C51_order_irrelevant.
Example C51_finest_common_example : partition (fun x => x < 6) [[0; 1]; [2]; [3]; [4]; [5]] /\ partition (fun x => x < 6) [[0]; [1; 2]; [3; 4]; [5]] /\
  finest_common (fun _ l => rev l) [[0; 1]; [2]; [3]; [4]; [5]] [[0]; [1; 2]; [3; 4]; [5]] = Ok [[5]; [4; 3; 4; 3]; [2; 1; 2; 0; 1; 0]].
Proof.
  split; [|split].
  - split; [|repeat constructor; intros x; cbn; lia]. intros x. split; [|intros (b & Hb & Hx); cbn in Hb; repeat (destruct Hb as [<-|Hb]; [cbn in Hx; lia|]); destruct Hb].
    intros H. destruct x as [|[|[|[|[|[|x]]]]]]; [exists [0; 1]; cbn; tauto|exists [0; 1]; cbn; tauto|exists [2]; cbn; tauto|exists [3]; cbn; tauto|exists [4]; cbn; tauto|exists [5]; cbn; tauto|lia].
  - split; [|repeat constructor; intros x; cbn; lia]. intros x. split; [|intros (b & Hb & Hx); cbn in Hb; repeat (destruct Hb as [<-|Hb]; [cbn in Hx; lia|]); destruct Hb].
    intros H. destruct x as [|[|[|[|[|[|x]]]]]]; [exists [0]; cbn; tauto|exists [1; 2]; cbn; tauto|exists [1; 2]; cbn; tauto|exists [3; 4]; cbn; tauto|exists [3; 4]; cbn; tauto|exists [5]; cbn; tauto|lia].
  - reflexivity.
Qed.

(** C52: sympy is represented by its assumed behaviour [sympy_ok].  Function.split(legacy=False) gives a dictionary for each term: its keys are pairwise disjoint groups of
    variables that cover the directions, among them the empty group of the constants; each value depends only on the variables of its key; the product of the
    values is the term; and the groups are as fine as the factors allow. *)
Theorem C52_split : forall (N : num), num_laws N -> forall E (eval : E -> (nat -> N) -> N) e_mul e_1 add_args mul_args free_vars, sympy_ok eval e_mul e_1 add_args mul_args free_vars ->
  forall f, NoDup (f_dirs f) -> (forall t a, In t (add_args (f_sym f)) -> In a (mul_args t) -> incl (free_vars a) (f_dirs f)) ->
  let split := fun_split E e_mul e_1 add_args mul_args free_vars f in
  length split = length (add_args (f_sym f)) /\
  (forall env, eval (f_sym f) env = nsum (map (fun d => nprod (map (fun '(_, e) => eval e env) d)) split)) /\
  forall i term d, nth_error (add_args (f_sym f)) i = Some term -> nth_error split i = Some d ->
    ForallOrdPairs apart (map fst d) /\ (forall x, In x (f_dirs f) <-> exists k, In k (map fst d) /\ In x k) /\ In [] (map fst d) /\
    (forall k e, In (k, e) d -> depends_on eval e k) /\ (forall env, nprod (map (fun '(_, e) => eval e env) d) = eval term env) /\
    forall R, partition (fun x => In x (f_dirs f)) R -> (forall a, In a (mul_args term) -> free_vars a <> [] -> exists c, In c R /\ incl (free_vars a) c) -> refines (map fst d) R.
Proof. exact split_ok. Qed.
Print Assumptions C52_split.

(** Function.split(legacy=True): a term all of whose factors have one variable at most gives a function for each direction and a constant; a term with another factor gives
    one function and the constant. *)
Theorem C52_legacy : forall (N : num), num_laws N -> forall E (eval : E -> (nat -> N) -> N) e_mul e_div e_1 add_args mul_args free_vars, sympy_ok eval e_mul e_1 add_args mul_args free_vars ->
  forall dirs term, NoDup dirs -> (forall a, In a (mul_args term) -> incl (free_vars a) dirs /\ forall x y, In x (free_vars a) -> In y (free_vars a) -> x = y) ->
  exists es m, split_legacy_term E e_mul e_div e_1 mul_args free_vars dirs term = Ok (map (fun '(x, e) => Fn e [x]) (combine dirs es), m) /\ length es = length dirs /\
    (forall x e, In (x, e) (combine dirs es) -> depends_on eval e [x]) /\ depends_on eval m [] /\ forall env, nmul (product eval es env) (eval m env) = eval term env.
Proof. exact legacy_separated. Qed.
Print Assumptions C52_legacy.
Theorem C52_legacy_inseparable : forall (N : num), num_laws N -> forall E (eval : E -> (nat -> N) -> N) e_mul e_div e_1 add_args mul_args free_vars, sympy_ok eval e_mul e_1 add_args mul_args free_vars ->
  forall dirs term a x y, NoDup dirs -> (forall a, In a (mul_args term) -> incl (free_vars a) dirs) -> In a (mul_args term) -> In x (free_vars a) -> In y (free_vars a) -> x <> y ->
  exists m, split_legacy_term E e_mul e_div e_1 mul_args free_vars dirs term = Ok ([Fn (e_div term m) dirs], m) /\
    forall env, eval m env = product eval (filter (constant free_vars) (mul_args term)) env.
Proof. exact legacy_inseparable. Qed.
Print Assumptions C52_legacy_inseparable.

(** 3 x2 |x0 + x1| x1 + x0. *)
Definition ex_term : expr := EMul (EMul (EInt 3) (EVar 2)) (EMul (EAbs (EAdd (EVar 0) (EVar 1))) (EVar 1)).
Example C52_split_example : num_laws num_Z /\ @sympy_ok num_Z expr x_eval EMul (EInt 1) x_add_args x_mul_args x_free /\
  x_add_args (EAdd ex_term (EVar 0)) = [ex_term; EVar 0] /\ (forall t a, In t [ex_term; EVar 0] -> In a (x_mul_args t) -> incl (x_free a) [0; 1; 2; 3]) /\
  map (map fst) (fun_split expr EMul (EInt 1) x_add_args x_mul_args x_free (Fn (EAdd ex_term (EVar 0)) [0; 1; 2; 3])) = [[[2]; [3]; []; [1; 0; 0; 1; 1]]; [[0]; [1]; [2]; [3]; []]].
Proof.
  split; [exact num_Z_laws|]. split; [exact x_ok|]. split; [reflexivity|]. split; [|reflexivity].
  intros t a [<-|[<-|[]]] Ha; cbn in Ha; repeat (destruct Ha as [<-|Ha]; [intros x Hx; cbn in Hx; cbn; tauto|]); destruct Ha.
Qed.
Example C52_legacy_example : exists fs m, split_legacy_term expr EMul EMul (EInt 1) x_mul_args x_free [0; 2] (EMul (EInt 3) (EMul (EVar 2) (EAbs (EVar 0)))) = Ok (fs, m) /\ map f_dirs fs = [[0]; [2]].
Proof. eexists. eexists. split; reflexivity. Qed.
Example C52_legacy_inseparable_example : exists f m, split_legacy_term expr EMul EMul (EInt 1) x_mul_args x_free [0; 1; 2] ex_term = Ok ([f], m) /\ x_eval m (fun _ => 7%Z) = 3%Z.
Proof. eexists. eexists. split; reflexivity. Qed.

(** C53: if no factor straddles the directions [A], Function.project gives the product of the factors in the variables [A]; the constants go with the first direction.  The function
    is the product of its projections on [A] and on the other directions [B]. *)
Theorem C53_project : forall (N : num), num_laws N -> forall E (eval : E -> (nat -> N) -> N) e_mul e_1 add_args mul_args free_vars, sympy_ok eval e_mul e_1 add_args mul_args free_vars ->
  forall f term first rest A, f_dirs f = first :: rest -> NoDup (f_dirs f) -> add_args (f_sym f) = [term] -> (forall a, In a (mul_args term) -> incl (free_vars a) (f_dirs f)) ->
  A <> [] -> StronglySorted le A -> (forall a, In a (mul_args term) -> ~ straddles free_vars A a) ->
  exists e, fun_project E e_mul e_1 add_args mul_args free_vars f A = Ok (Fn e A) /\
    forall env, eval e env = nmul (if existsb (Nat.eqb first) A then product eval (filter (constant free_vars) (mul_args term)) env else n1)
                                  (product eval (filter (inside free_vars A) (mul_args term)) env).
Proof. exact (fun N L E eval mul => project_ok N L E eval mul mul). Qed.
Print Assumptions C53_project.
Theorem C53_product : forall (N : num), num_laws N -> forall E (eval : E -> (nat -> N) -> N) e_mul e_1 add_args mul_args free_vars, sympy_ok eval e_mul e_1 add_args mul_args free_vars ->
  forall f term first rest A B, f_dirs f = first :: rest -> NoDup (f_dirs f) -> add_args (f_sym f) = [term] -> (forall a, In a (mul_args term) -> incl (free_vars a) (f_dirs f)) ->
  In first A -> B <> [] -> StronglySorted le A -> StronglySorted le B -> (forall x, In x (f_dirs f) <-> In x A \/ In x B) -> disjoint A B -> (forall a, In a (mul_args term) -> ~ straddles free_vars A a) ->
  exists ea eb, fun_project E e_mul e_1 add_args mul_args free_vars f A = Ok (Fn ea A) /\ fun_project E e_mul e_1 add_args mul_args free_vars f B = Ok (Fn eb B) /\
    forall env, eval (f_sym f) env = nmul (eval ea env) (eval eb env).
Proof. exact (fun N L E eval mul => project_product N L E eval mul mul). Qed.
Print Assumptions C53_product.
(** Projecting raises ValueError if the function is a sum, or if a factor has all the directions as variables and others. *)
Theorem C53_sum_raises : forall E e_mul e_1 add_args mul_args free_vars f A, length (add_args (f_sym f)) <> 1 -> fun_project E e_mul e_1 add_args mul_args free_vars f A = Throw "ValueError".
Proof. exact project_terms. Qed.
Print Assumptions C53_sum_raises.
Theorem C53_raises : forall (N : num), num_laws N -> forall E (eval : E -> (nat -> N) -> N) e_mul e_1 add_args mul_args free_vars, sympy_ok eval e_mul e_1 add_args mul_args free_vars ->
  forall f term first rest A a, f_dirs f = first :: rest -> NoDup (f_dirs f) -> add_args (f_sym f) = [term] -> (forall a, In a (mul_args term) -> incl (free_vars a) (f_dirs f)) ->
  In a (mul_args term) -> A <> [] -> incl A (free_vars a) -> ~ incl (free_vars a) A -> fun_project E e_mul e_1 add_args mul_args free_vars f A = Throw "ValueError".
Proof. exact (fun N L E eval mul => project_raises N L E eval mul mul). Qed.
Print Assumptions C53_raises.
(** The property is false: projecting x2 |x0 + x1| on directions 0 and 2 gives x2.  The factor |x0 + x1| is lost: no function of the other direction makes up for it. *)
Theorem C53_refuted : exists g, fun_project expr EMul (EInt 1) x_add_args x_mul_args x_free (Fn (EMul (EVar 2) (EAbs (EAdd (EVar 0) (EVar 1)))) [0; 1; 2]) [0; 2] = Ok g /\
  (forall env, x_eval (f_sym g) env = env 2) /\
  ~ exists h, @depends_on num_Z _ x_eval h [1] /\ forall env, x_eval (EMul (EVar 2) (EAbs (EAdd (EVar 0) (EVar 1)))) env = (x_eval (f_sym g) env * x_eval h env)%Z.
Proof. exact project_drops. Qed.
Print Assumptions C53_refuted.
Example C53_project_example : exists ea eb, fun_project expr EMul (EInt 1) x_add_args x_mul_args x_free (Fn ex_term [0; 1; 2; 3]) [0; 1] = Ok (Fn ea [0; 1]) /\
  fun_project expr EMul (EInt 1) x_add_args x_mul_args x_free (Fn ex_term [0; 1; 2; 3]) [2; 3] = Ok (Fn eb [2; 3]) /\ forall env, x_eval ex_term env = (x_eval ea env * x_eval eb env)%Z.
Proof.
  apply (C53_product num_Z num_Z_laws expr x_eval EMul (EInt 1) x_add_args x_mul_args x_free x_ok (Fn ex_term [0; 1; 2; 3]) ex_term 0 [1; 2; 3] [0; 1] [2; 3]).
  - reflexivity.
  - cbn [f_dirs]. repeat constructor; cbn; lia.
  - reflexivity.
  - intros a Ha. cbn in Ha. repeat (destruct Ha as [<-|Ha]; [intros x Hx; cbn in Hx; cbn; tauto|]). destruct Ha.
  - cbn. tauto.
  - discriminate.
  - repeat constructor.
  - repeat constructor.
  - intros x. cbn. tauto.
  - intros x. cbn. lia.
  - intros a Ha [(x & X1 & X2) (y & Y1 & Y2)]. cbn in Ha. repeat (destruct Ha as [<-|Ha]; [cbn in *; lia|]). destruct Ha.
Qed.
Example C53_raises_example : fun_project expr EMul (EInt 1) x_add_args x_mul_args x_free (Fn ex_term [0; 1; 2; 3]) [1] = Throw "ValueError".
Proof.
  apply (C53_raises num_Z num_Z_laws expr x_eval EMul (EInt 1) x_add_args x_mul_args x_free x_ok (Fn ex_term [0; 1; 2; 3]) ex_term 0 [1; 2; 3] [1] (EAbs (EAdd (EVar 0) (EVar 1)))).
  - reflexivity.
  - cbn [f_dirs]. repeat constructor; cbn; lia.
  - reflexivity.
  - intros a Ha. cbn in Ha. repeat (destruct Ha as [<-|Ha]; [intros x Hx; cbn in Hx; cbn; tauto|]). destruct Ha.
  - cbn. tauto.
  - discriminate.
  - intros x [<-|[]]. cbn. tauto.
  - intros G. destruct (G 0) as [G0|[]]; [left; reflexivity|discriminate].
Qed.
