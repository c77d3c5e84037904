(** Token pattern matching: /repo/src/check_pattern.cpp.  Definitions only.
    Iterators into a token vector are integers: v.begin() is 0, v.end() is the size.  Reading through an
    iterator outside [0, size) and walking a range that is not inside the vector are [UB]. *)
From Coq Require Import Ascii String List Bool Arith ZArith.
From Verif Require Import Str.
Import ListNotations.
Local Open Scope Z_scope.

Definition vsize (v : list str) : Z := Z.of_nat (length v).

(** *it *)
Definition deref (v : list str) (i : Z) : res str :=
  if (0 <=? i) && (i <? vsize v) then Ok (nth (Z.to_nat i) v []) else UB.

(** the elements of the range [b, e), as visited by [for (it = b; it != e; it++)] *)
Definition slice (v : list str) (b e : Z) : res (list str) :=
  if (0 <=? b) && (b <=? e) && (e <=? vsize v)
  then Ok (firstn (Z.to_nat (e - b)) (skipn (Z.to_nat b) v)) else UB.

(** elements of a pattern sequence: TYPE ("\x01"), SYMBOL ("\x02") or a literal character, check_pattern.cpp:31-32 *)
Inductive pat := PType | PSymbol | PChar (c : ascii).

(** seq_t, check_pattern.cpp:39-46; min_size, dist_front and dist_end are computed by MKFUNC (:143-150) *)
Record seq := mkseq { sq_front : list pat; sq_middle : list pat; sq_end : list pat }.
Definition min_size (q : seq) : Z :=
  Z.of_nat (length (sq_front q)) + Z.of_nat (length (sq_middle q)) + Z.of_nat (length (sq_end q)).
Definition dist_front (q : seq) : Z := Z.of_nat (length (sq_front q)).
Definition dist_end (q : seq) : Z := Z.of_nat (length (sq_middle q)) + Z.of_nat (length (sq_end q)).

(** the lambda [matching], check_pattern.cpp:58-62.  Token bytes \x01 and \x02 cannot occur (the scanner
    does not accept them), so [e_vec == e_seq] is false for TYPE and SYMBOL. *)
Definition matching (c : ascii) (p : pat) : bool :=
  match p with
  | PChar d => Ascii.eqb c d
  | PSymbol => is_ident c
  | PType => false
  end.

Definition front_has_symbol (q : seq) : bool :=
  match nth_error (sq_front q) 1 with Some PSymbol => true | _ => false end.

(** the loop at check_pattern.cpp:104-108 *)
Fixpoint match_middle (v : list str) (it : Z) (m : list pat) : res bool :=
  match m with
  | [] => Ok true
  | p :: m' => s <- deref v it ;;
               if matching (str_front s) p then match_middle v (it + 1) m' else Ok false
  end.

(** check_pattern, check_pattern.cpp:55-112 *)
Definition check_pattern (v : list str) (it : Z) (q : seq) : res bool :=
  if vsize v <? min_size q then Ok false
  else if negb (it =? vsize v) && ((it <? dist_front q) || (vsize v - it <? dist_end q)) then Ok false
  else
    (* front *)
    ok_front <- (if front_has_symbol q
                 then s <- deref v (it - 1) ;; Ok (is_ident (str_front s))
                 else Ok true) ;;
    if negb ok_front then Ok false
    else
      (* end *)
      ok_end <- match sq_end q with
                | [e] => s <- deref v (vsize v - 1) ;; Ok (matching (str_front s) e)
                | [e0; e1] =>
                    s1 <- deref v (vsize v - 1) ;;
                    if matching (str_front s1) e1
                    then s0 <- deref v (vsize v - 2) ;; Ok (matching (str_front s0) e0)
                    else Ok false
                | _ => Ok false     (* excluded by the static_assert, check_pattern.cpp:139-141 *)
                end ;;
      if negb ok_end then Ok false
      else match_middle v it (sq_middle q).

(** parse::find_first_not_pointer_or_ident, check_pattern.cpp:117-128 *)
Fixpoint first_not_ptr_or_ident (v : list str) : nat :=
  match v with
  | [] => O
  | s :: v' => let c := str_front s in
               if negb (Ascii.eqb c "*") && negb (is_ident c) then O else S (first_not_ptr_or_ident v')
  end.
Definition find_first_not_pointer_or_ident (v : list str) : Z := Z.of_nat (first_not_ptr_or_ident v).

(** the pattern table, check_pattern.cpp:156-166 *)
Definition lp := PChar "(".  Definition rp := PChar ")".
Definition lb := PChar "[".  Definition rb := PChar "]".
Definition st := PChar "*".
Definition q_function := mkseq [PType; PSymbol] [lp] [rp].
Definition q_function_parentheses := mkseq [PType] [lp; PSymbol; rp; lp] [rp].
Definition q_function_paren_pointer1 := mkseq [PType] [lp; st; PSymbol; lp] [rp; rp].
Definition q_function_paren_pointer2 := mkseq [PType] [lp; st; st; PSymbol; lp] [rp; rp].
Definition q_function_pointer := mkseq [PType] [lp; st; PSymbol; rp; lp] [rp].
Definition q_function_pointer_no_name := mkseq [PType] [lp; st; rp; lp] [rp].
Definition q_object := mkseq [PType] [] [PSymbol].
Definition q_array := mkseq [PType; PSymbol] [lb] [rb].
Definition q_array_no_name := mkseq [PType] [lb] [rb].

Definition is_function v it := check_pattern v it q_function.
Definition is_function_parentheses v it := check_pattern v it q_function_parentheses.
Definition is_function_paren_pointer1 v it := check_pattern v it q_function_paren_pointer1.
Definition is_function_paren_pointer2 v it := check_pattern v it q_function_paren_pointer2.
Definition is_function_pointer v it := check_pattern v it q_function_pointer.
Definition is_function_pointer_no_name v it := check_pattern v it q_function_pointer_no_name.
Definition is_object v it := check_pattern v it q_object.
Definition is_array v it := check_pattern v it q_array.
Definition is_array_no_name v it := check_pattern v it q_array_no_name.
