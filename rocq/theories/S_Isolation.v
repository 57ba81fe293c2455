(** Specification for the exact form of C05: what one class of arch/ goes through in a history
    of instances and questions. *)
From Coq Require Import List Bool Ascii String ZArith.
From Verif Require Import PyBase M_Utils S_Utils M_Arch.
Import ListNotations.
Open Scope Z_scope.
Open Scope list_scope.

(** Somebody asked an instance of class [k] for the options of version [v]. *)
Definition asked (k : klass) (v : version) (h : list act) : Prop :=
  exists h1 i h2 a, h = h1 ++ Ask i v :: h2 /\
    nth_error (p_objs (run_process h1)) i = Some a /\ a_class a = k.

(** An option that came with an instance of class [k], for versions in [lo, hi[, before anybody
    asked for version [v]. *)
Definition came_before (k : klass) (v : version) (h : list act) (lo hi : version) (key : str) (deps : list str) : Prop :=
  exists h1 h2 b, h = h1 ++ h2 /\ In b (p_objs (run_process h1)) /\ a_class b = k /\ ~ asked k v h1 /\
    In (lo, hi, key, deps) (init_kconfig (a_class b) (a_abi b) (a_bits32 b)).

(** The additions to the dictionary of class [k] and the questions about it, in order, given the
    instances there are. *)
Fixpoint events (k : klass) (objs : list arch) (h : list act) : list (op str (list str)) :=
  match h with
  | [] => []
  | New k' v abi b :: h' =>
      match arch_new k' v abi b with
      | Ok a => (if klass_eqb k' k then map OAdd (init_kconfig k' abi b) else []) ++ events k (objs ++ [a]) h'
      | _ => events k objs h'
      end
  | Ask i v :: h' =>
      match nth_error objs i with
      | Some a => (if klass_eqb (a_class a) k then [OLook v] else []) ++ events k objs h'
      | None => events k objs h'
      end
  end.
