(** lib.finest_common, hermipy/lib.py. *)
From Coq Require Import String List Bool Arith.
From Verif Require Import Base PyBase.
Import ListNotations.
Local Open Scope string_scope. Local Open Scope list_scope. Local Open Scope nat_scope.

(** A Python frozenset of ints: a list, of which only the elements matter. *)
Definition fset := list nat.
Definition fs_eqb (a b : fset) : bool := forallb (fun x => py_in x b) a && forallb (fun x => py_in x a) b.
(** [a.intersection(b) != set()], [a.union(b)]. *)
Definition fs_meets (a b : fset) : bool := existsb (fun x => py_in x b) a.
Definition fs_union (a b : fset) : fset := a ++ b.

(** A Python set of frozensets: [b in s], [s - t], [s.remove(b)], [s.add(b)]. *)
Definition ps_in (b : fset) (s : list fset) : bool := existsb (fs_eqb b) s.
Definition ps_diff (s t : list fset) : list fset := filter (fun b => negb (ps_in b t)) s.
Definition ps_remove (b : fset) (s : list fset) : res (list fset) :=
  if ps_in b s then Ok (filter (fun c => negb (fs_eqb b c)) s) else Throw "KeyError".
Definition ps_add (b : fset) (s : list fset) : list fset := if ps_in b s then s else s ++ [b].

Section Part.
(** [list(s)]: Python does not specify the order, which may be another one each time ([k] numbers the calls). *)
Variable order : nat -> list fset -> list fset.

(** [for b in list(set): if s.intersection(b) != set(): s = s.union(b); set.remove(b)], lib.py:55-58, 60-63. *)
Definition absorb (k : nat) (s : fset) (set : list fset) : res (fset * list fset) :=
  for_in (fun b '(s, set) =>
      if fs_meets s b then set <- ps_remove b set ;; Ok (fs_union s b, set) else Ok (s, set)) (order k set) (s, set).

(** The while loop, lib.py:52-63.  The fuel is proved sufficient. *)
Fixpoint absorb_all (fuel k : nat) (s : fset) (set1 set2 : list fset) : res (nat * fset * list fset * list fset) :=
  if existsb (fun b => fs_meets b s) set1 || existsb (fun b => fs_meets b s) set2 then
    match fuel with
    | 0 => NoFuel
    | S fuel =>
        '(s, set2) <- absorb k s set2 ;;
        '(s, set1) <- absorb (S k) s set1 ;;
        absorb_all fuel (S (S k)) s set1 set2
    end
  else Ok (k, s, set1, set2).

(** finest_common, lib.py:41-68, a recursive function. *)
Fixpoint finest (fuel k : nat) (set1 set2 : list fset) : res (list fset) :=
  match order k (ps_diff set1 set2) with
  | [] => Ok set1
  | s :: _ =>
      match fuel with
      | 0 => NoFuel
      | S fuel =>
          set1 <- ps_remove s set1 ;;
          '(k, s, set1, set2) <- absorb_all (length set1 + length set2) (S k) s set1 set2 ;;
          finest fuel k (ps_add s set1) (ps_add s set2)
      end
  end.
Definition finest_common (set1 set2 : list fset) : res (list fset) := finest (length set1) 0 set1 set2.
End Part.
