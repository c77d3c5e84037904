(** How a C preprocessor replaces macros, on tokens, for C93: parameters, the operators # and ##, arguments that are replaced
    before they are put in, and words that are not replaced again inside of their own replacement.  Definitions only.

    Simplifications: # is defined for arguments of one word; ## pastes words and leaves other tokens side by side. *)
From Coq Require Import Ascii String List Bool Arith.
From Verif Require Import Str SpecCLang.
Import ListNotations.

(** a macro: its parameters (if it has a list of them; the last may be an ellipsis) and what it stands for *)
Record mdef := mkdef { d_params : option (list str * bool); d_body : list tok }.
(** a list of parameters behind its parenthesis *)
Fixpoint read_params (l : list tok) : option (list str * bool * list tok) :=
  match l with
  | TOp c :: r => if str_eqb c $")" then Some ([], false, r)
                  else if str_eqb c $"," then read_params r
                  else if str_eqb c $"." then
                    match r with
                    | TOp d :: TOp e :: TOp f :: r => if str_eqb d $"." && str_eqb e $"." && str_eqb f $")" then Some ([], true, r) else None
                    | _ => None
                    end
                  else None
  | TWord x :: r => match read_params r with Some (ps, e, r) => Some (x :: ps, e, r) | None => None end
  | _ => None
  end.
Definition read_macro (call : bool) (l : list tok) : option mdef :=
  if call then
    match l with
    | TOp c :: r => if str_eqb c $"(" then match read_params r with Some (ps, e, b) => Some (mkdef (Some (ps, e)) b) | None => None end else None
    | _ => None
    end
  else Some (mkdef None l).
(** the macros in effect behind what was read, newest first *)
Definition macro_table := list (str * option mdef).
Definition add_macro (m : macro_table) (o : pout) : macro_table :=
  match o with
  | PTok _ => m
  | PDefine x call l => (x, read_macro call l) :: m
  | PUndef x => (x, None) :: m
  end.
Definition macros_of (l : list pout) : macro_table := fold_left add_macro l [].
Definition macro_at (m : macro_table) (x : str) : option mdef := match lookup x m with Some d => d | None => None end.

(* ---------------------------------------------------------------- replacement *)

(** a token and the macros from whose replacement it comes *)
Definition htok := (tok * list str)%type.
Definition mem (x : str) (l : list str) : bool := existsb (str_eqb x) l.
(** the arguments of a call, behind its parenthesis; [d]: open parentheses, [a]: the present argument *)
Fixpoint arguments (d : nat) (a : list htok) (l : list htok) : option (list (list htok) * list str * list htok) :=
  match l with
  | [] => None
  | (TOp c, h) :: r =>
      if str_eqb c $"(" then arguments (S d) (a ++ [(TOp c, h)]) r
      else if str_eqb c $")" then
        match d with O => Some ([a], h, r) | S d => arguments d (a ++ [(TOp c, h)]) r end
      else if str_eqb c $"," && (d =? 0) then
        match arguments 0 [] r with Some (l, h, r) => Some (a :: l, h, r) | None => None end
      else arguments d (a ++ [(TOp c, h)]) r
  | t :: r => arguments d (a ++ [t]) r
  end.
(** the argument for a parameter; the ellipsis takes the rest, with the commas between *)
Fixpoint joined (l : list (list htok)) : list htok :=
  match l with [] => [] | [x] => x | x :: r => x ++ (TOp $",", []) :: joined r end.
Fixpoint parameter {A} (x : str) (ps : list str) (l : list A) : option A :=
  match ps, l with p :: ps, a :: l => if str_eqb x p then Some a else parameter x ps l | _, _ => None end.
Definition argument (x : str) (ps : list str) (va : bool) (l : list (list htok)) : option (list htok) :=
  match parameter x ps l with
  | Some a => Some a
  | None => if va && str_eqb x $"__VA_ARGS__" then Some (joined (skipn (length ps) l)) else None
  end.
Definition in_quotes (l : list htok) : htok := match l with [(TWord w, h)] => (TText w, h) | _ => (TBad, []) end.
Definition paste (a b : list htok) : list htok :=
  match rev a, b with
  | (TWord x, h) :: ra, (TWord y, h') :: rb => rev ra ++ (TWord (x ++ y), filter (fun z => mem z h') h) :: rb
  | _, _ => a ++ b
  end.
(** the body with its arguments: [raw] as they were written, [full] with their macros replaced; [out]: what was made so far *)
Fixpoint put_in (ps : list str) (va : bool) (raw full : list (list htok)) (out : list htok) (l : list tok) {struct l} : list htok :=
  match l with
  | [] => out
  | TOp c :: r =>
      if str_eqb c $"##" then
        match r with
        | TWord x :: r => put_in ps va raw full (paste out (match argument x ps va raw with Some a => a | None => [(TWord x, [])] end)) r
        | _ => put_in ps va raw full out r
        end
      else if str_eqb c $"#" then
        match r with
        | TWord x :: r => match argument x ps va raw with
                          | Some a => put_in ps va raw full (out ++ [in_quotes a]) r
                          | None => put_in ps va raw full (out ++ [(TOp c, []); (TWord x, [])]) r
                          end
        | _ => put_in ps va raw full (out ++ [(TOp c, [])]) r
        end
      else put_in ps va raw full (out ++ [(TOp c, [])]) r
  | TWord x :: r =>
      let pasted := match r with TOp c :: _ => str_eqb c $"##" | _ => false end in
      match argument x ps va (if pasted then raw else full) with
      | Some a => put_in ps va raw full (out ++ a) r
      | None => put_in ps va raw full (out ++ [(TWord x, [])]) r
      end
  | t :: r => put_in ps va raw full (out ++ [(t, [])]) r
  end.
Definition hide (h : list str) (l : list htok) : list htok := map (fun t => (fst t, h ++ snd t)) l.
Fixpoint all_some {A} (l : list (option A)) : option (list A) :=
  match l with [] => Some [] | Some x :: r => option_map (cons x) (all_some r) | None :: _ => None end.
(** the number bounds the steps *)
Fixpoint replace_all (m : macro_table) (n : nat) (l : list htok) {struct n} : option (list htok) :=
  match n with
  | O => None
  | S n =>
      match l with
      | [] => Some []
      | (TWord x, h) :: r =>
          let keep := option_map (cons (TWord x, h)) (replace_all m n r) in
          if mem x h then keep else
          match macro_at m x with
          | None => keep
          | Some (mkdef None b) => replace_all m n (hide (x :: h) (put_in [] false [] [] [] b) ++ r)
          | Some (mkdef (Some (ps, va)) b) =>
              match r with
              | (TOp c, _) :: r' =>
                  if str_eqb c $"(" then
                    match arguments 0 [] r' with
                    | Some (raw, h', r'') =>
                        match all_some (map (replace_all m n) raw) with
                        | Some full => replace_all m n (hide (x :: filter (fun z => mem z h') h) (put_in ps va raw full [] b) ++ r'')
                        | None => None
                        end
                    | None => None
                    end
                  else keep
              | _ => keep
              end
          end
      | t :: r => option_map (cons t) (replace_all m n r)
      end
  end.
(** the text [l] becomes [r] *)
Definition becomes (m : macro_table) (l r : list tok) : Prop :=
  exists n x, replace_all m n (map (fun t => (t, [])) l) = Some x /\ map fst x = r.
