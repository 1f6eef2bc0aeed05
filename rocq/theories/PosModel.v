(** Position, hermipy/position.py. *)
From Coq Require Import String List Bool Arith.
From Verif Require Import Base Num PyBase.
Import ListNotations.
Local Open Scope string_scope. Local Open Scope list_scope. Local Open Scope nat_scope.

Section Pos.
Variable N : num.
(** [la.norm(cov - np.diag(np.diag(cov)), 2) > 1e-10], position.py:106-109: the spectral norm is not modelled, any test will do. *)
Variable far_from_diag : list (list N) -> bool.

(** The attributes of a Position, position.py:71-110.  [dim] is the number of directions.  Not modelled: [factor], a
    square root of the covariance matrix from la.eig. *)
Record position := Pos {
  p_dirs : list nat;
  p_mean : list N;
  p_cov : list (list N);
  p_types : list string;
  p_is_diag : bool }.
Definition p_dim (p : position) : nat := length (p_mean p).

(** [np.zeros(n)], [np.eye(n)], [np.diag(l)]. *)
Definition zeros (n : nat) : list N := repeat n0 n.
Definition diag_mat (l : list N) : list (list N) :=
  map (fun i => map (fun j => if i =? j then nth i l n0 else n0) (seq 0 (length l))) (seq 0 (length l)).
Definition eye (n : nat) : list (list N) := diag_mat (repeat n1 n).

Definition square (m : list (list N)) : bool := forallb (fun row => length row =? length m) m.

(** Position.__init__, position.py:71-110 ([None] for an argument that is not given).  [list(range(dim))] uses the argument
    [dim], not [self.dim]: TypeError when it is None.  la.eig raises LinAlgError on a matrix that is not square. *)
Definition position_init (dim : option nat) (mean : option (list N)) (cov : option (list (list N)))
    (dirs : option (list nat)) (types : option (list string)) : res position :=
  self_dim <- match mean, cov, dirs, dim with
              | Some m, _, _, _ => Ok (length m)
              | None, Some c, _, _ => Ok (length c)
              | None, None, Some d, _ => Ok (length d)
              | None, None, None, Some n => Ok n
              | None, None, None, None => Throw "ValueError"
              end ;;
  _ <- require (agrees self_dim (option_map (@length _) mean) && agrees self_dim (option_map (@length _) cov) &&
                agrees self_dim (option_map (@length _) dirs) && agrees self_dim dim &&
                agrees self_dim (option_map (@length _) types)) "ValueError" ;;
  self_dirs <- match dirs, dim with
               | Some d, _ => Ok d
               | None, Some n => Ok (seq 0 n)
               | None, None => Throw "TypeError"
               end ;;
  let self_mean := match mean with Some m => m | None => zeros self_dim end in
  let self_cov := match cov with Some c => c | None => eye self_dim end in
  let self_types := match types with Some t => t | None => repeat "hermite" self_dim end in
  _ <- require (square self_cov) "LinAlgError" ;;
  Ok (Pos self_dirs self_mean self_cov self_types (negb ((0 <? length self_dirs) && far_from_diag self_cov))).

(** [p.cov[i][i]]. *)
Definition variance (p : position) (i : nat) : res N := row <- py_get (p_cov p) i ;; py_get row i.

(** The inner function _tensorize of Position.tensorize, position.py:43-63. *)
Definition tensorize2 (p1 p2 : position) : res position :=
  let diff1 := filter (fun d => negb (py_in d (p_dirs p2))) (p_dirs p1) in
  let diff2 := filter (fun d => negb (py_in d (p_dirs p1))) (p_dirs p2) in
  let dirs_result := py_sorted (diff1 ++ diff2) in
  _ <- for_in (fun d _ =>
         i1 <- py_index (p_dirs p1) d ;; i2 <- py_index (p_dirs p2) d ;;
         m1 <- py_get (p_mean p1) i1 ;; m2 <- py_get (p_mean p2) i2 ;;
         if neqb m1 m2 then
           c1 <- variance p1 i1 ;; c2 <- variance p2 i2 ;;
           require (neqb c1 c2) "ValueError"
         else Throw "ValueError") (filter (fun d => py_in d (p_dirs p2)) (p_dirs p1)) tt ;;
  '(mean, cov, types) <- for_in (fun d '(mean, cov, types) =>
         let pos := if py_in d (p_dirs p1) then p1 else p2 in
         index <- py_index (p_dirs pos) d ;;
         m <- py_get (p_mean pos) index ;;
         c <- variance pos index ;;
         t <- py_get (p_types pos) index ;;
         Ok (mean ++ [m], cov ++ [c], types ++ [t])) dirs_result ([], [], []) ;;
  position_init None (Some mean) (Some (diag_mat cov)) (Some dirs_result) (Some types).

(** Position.tensorize, position.py:30-69 (every argument is a Position). *)
Definition pos_tensorize (args : list position) : res position :=
  _ <- for_in (fun a dirs =>
         _ <- require (p_is_diag a) "ValueError" ;;
         for_in (fun d dirs =>
           _ <- require (py_count dirs d <=? 1) "ValueError" ;;
           Ok (dirs ++ [d])) (p_dirs a) dirs) args [] ;;
  match args with
  | [] => Throw "IndexError"
  | a :: rest => for_in (fun a result => tensorize2 result a) rest a
  end.

(** Position.project, position.py:147-159, for a list of directions. *)
Definition pos_project (p : position) (directions : list nat) : res position :=
  _ <- require (p_is_diag p && nats_eqb directions (py_sorted directions)) "ValueError" ;;
  let dim := length directions in
  rel_dirs <- mapM (py_index (p_dirs p)) directions ;;
  mean <- mapM (py_get (p_mean p)) rel_dirs ;;
  cov <- mapM (variance p) rel_dirs ;;
  types <- mapM (py_get (p_types p)) rel_dirs ;;
  position_init (Some dim) (Some mean) (Some (diag_mat cov)) (Some directions) (Some types).

End Pos.
Arguments Pos {N}. Arguments p_dirs {N}. Arguments p_mean {N}. Arguments p_cov {N}. Arguments p_types {N}. Arguments p_is_diag {N}. Arguments p_dim {N}.
