(** Statement collection and parenthesis clean-up: /repo/src/tokenize.cpp.  Definitions only. *)
From Coq Require Import Ascii String List Bool Arith NArith ZArith.
From Verif Require Import Str Lex.
Import ListNotations.

(* ------------------------------------------------------------ tokenize_stream, tokenize.cpp:55-173 *)

(** What the loop leaves behind: the return value of the last lex() call and the two vectors. *)
Inductive ts_result :=
| TS_eof (stmts : list (list str)) (options : list str)
| TS_error (msg : str)                    (* LEX_ERROR *)
| TS_ast (rest : list token).             (* LEX_AST_BEGIN; [rest] are the tokens still to be read *)

(** locals of the loop *)
Record ts_state := mkts {
  ts_vec : list (list str);   (* vec, in order *)
  ts_opts : list str;         (* *options *)
  ts_tokens : list str;       (* tokens *)
  ts_block : bool;            (* block *)
  ts_curly : Z                (* curly_count (int; overflow not modelled) *)
}.
Definition ts_init : ts_state := mkts [] [] [] false 0.

(** after the loop: "push back if last prototype didn't end on semicolon", tokenize.cpp:167-170 *)
Definition ts_finish (s : ts_state) : ts_result :=
  TS_eof (ts_vec s ++ (if ts_tokens s then [] else [ts_tokens s])) (ts_opts s).

(** text of the keyword tokens *)
Definition kw_text (t : token) : str :=
  match t with
  | T_STRUCT => $"struct" | T_UNION => $"union" | T_ENUM => $"enum" | T_TYPEDEF => $"typedef"
  | _ => []
  end.

(** One iteration.  [inl]: loop goes on; [inr]: loop = false with this result. *)
Definition ts_step (read_options : bool) (s : ts_state) (t : token) (rest : list token)
  : ts_state + ts_result :=
  let '(mkts vec opts toks block curly) := s in
  let add_opt o := mkts vec (if read_options then opts ++ [o] else opts) toks block curly in
  if block then                                            (* :68-108 *)
    match t with
    | T_STRUCT | T_UNION | T_ENUM | T_TYPEDEF | T_ID _ | T_OTHER _ | T_EQUAL _ => inl s
    | T_CURLY_OPEN _ => inl (mkts vec opts toks block (curly + 1))
    | T_CURLY_CLOSE _ => inl (mkts vec opts toks block (curly - 1))
    | T_SEMICOLON => if (curly <? 1)%Z then inl (mkts vec opts [] false curly) else inl s
    | T_OPTION o => inl (add_opt o)
    | T_ERROR m => inr (TS_error m)
    | T_AST_BEGIN => inr (TS_ast rest)
    | T_AST_FUNCVAR _ | T_AST_PARMVAR _ => inr (ts_finish s)
    end
  else                                                     (* :109-164 *)
    match t with
    | T_ID x | T_OTHER x => inl (mkts vec opts (toks ++ [x]) block curly)
    | T_STRUCT | T_UNION | T_ENUM | T_TYPEDEF =>
        match toks with
        | [] => inl (mkts vec opts toks true 0)
        | _ => inl (mkts vec opts (toks ++ [kw_text t]) block curly)
        end
    | T_CURLY_OPEN l => inr (TS_error (illegal_char_msg "{" l))
    | T_CURLY_CLOSE l => inr (TS_error (illegal_char_msg "}" l))
    | T_EQUAL l => inr (TS_error (illegal_char_msg "=" l))
    | T_SEMICOLON =>
        match toks with
        | [] => inl s
        | _ => inl (mkts (vec ++ [toks]) opts [] block curly)
        end
    | T_OPTION o => inl (add_opt o)
    | T_ERROR m => inr (TS_error m)
    | T_AST_BEGIN => inr (TS_ast rest)
    | T_AST_FUNCVAR _ | T_AST_PARMVAR _ => inr (ts_finish s)
    end.

Fixpoint ts_loop (read_options : bool) (s : ts_state) (ts : list token) : ts_result :=
  match ts with
  | [] => ts_finish s                       (* EOF *)
  | t :: ts' =>
      match ts_step read_options s t ts' with
      | inl s' => ts_loop read_options s' ts'
      | inr r => r
      end
  end.

Definition tokenize_stream (read_options : bool) (ts : list token) : ts_result :=
  ts_loop read_options ts_init ts.

(* ------------------------------------------------------------ superfluous parentheses, tokenize.cpp:232-339 *)

(** entry_t, tokenize.cpp:43-47; [ch]: '(' , ')' or 0 *)
Inductive pch := POpen | PClose | PNone.
Record entry := mkent { e_str : str; e_ch : pch; e_num : Z }.
Definition pch_eqb (a b : pch) : bool :=
  match a, b with POpen, POpen | PClose, PClose | PNone, PNone => true | _, _ => false end.

(** the numbering loop, tokenize.cpp:306-328 *)
Fixpoint number (n : Z) (v : list str) : list entry :=
  match v with
  | [] => []
  | e :: v' =>
      if Ascii.eqb (str_front e) "(" then mkent e POpen (n + 1) :: number (n + 1) v'
      else if Ascii.eqb (str_front e) ")" then mkent e PClose n :: number (n - 1) v'
      else mkent e PNone 0 :: number n v'
  end.

(** erase_Rparen, tokenize.cpp:241-267.  [v] is what follows the inner '('; returns it with the first
    matching inner ')' removed, or None (nothing erased).  Erasing the inner '(' is done by the caller. *)
Fixpoint erase_rparen (inner outer : Z) (v : list entry) : option (list entry) :=
  match v with
  | [] => None
  | a :: v' =>
      match v' with
      | b :: _ =>
          if pch_eqb (e_ch a) PClose && pch_eqb (e_ch b) PClose
             && (inner =? e_num a)%Z && (outer =? e_num b)%Z
          then Some v'
          else match erase_rparen inner outer v' with Some r => Some (a :: r) | None => None end
      | [] => None
      end
  end.

(** remove_matching_parentheses, tokenize.cpp:270-287.  [v] is the part of the vector from [it] on;
    what lies before is not touched.  Each round erases two entries or advances: fuel [length v]. *)
Fixpoint remove_matching (fuel : nat) (v : list entry) : list entry :=
  match fuel with
  | O => v
  | S f =>
      match v with
      | [] => []
      | a :: v' =>
          match v' with
          | b :: v'' =>
              if pch_eqb (e_ch a) POpen && pch_eqb (e_ch b) POpen then
                match erase_rparen (e_num b) (e_num a) v'' with
                | Some r => remove_matching f (a :: r)
                | None => a :: remove_matching f v'
                end
              else a :: remove_matching f v'
          | [] => a :: remove_matching f v'
          end
      end
  end.

(** remove_superfluous_parentheses, tokenize.cpp:290-339 *)
Definition remove_superfluous_parentheses (v : list str) : list str :=
  if Nat.ltb (length v) 4 then v
  else if negb (existsb (str_eqb $"(") v) then v
  else map e_str (remove_matching (length v) (number 0 v)).
