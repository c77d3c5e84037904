(** Specification vocabulary for what the parser records: kinds, parameter names, selections.
    Uses only the model's record types and the shape [a<n>] of generated names. *)
From Coq Require Import Ascii String List Bool Arith ZArith.
From Verif Require Import Str CheckPattern Parse ParamNames SpecParse.
Import ListNotations.

(** the outcome is a normal return or a reported error *)
Definition defined {A} (r : res A) : Prop := match r with Ok _ | Err _ => True | _ => False end.

Definition decl_kind (d : decl) : kind :=
  match d with
  | DObject _ _ => KObject | DArray _ _ _ => KObjectArray
  | DFunctionPointer _ _ _ => KFunctionPointer
  | _ => KFunction
  end.

(** a name taken from the parameter itself; the ellipsis has none *)
Definition own_name (v : list str) (o : option str) : Prop :=
  match o with
  | None => v = [$"..."]
  | Some n => In n v /\ is_ident (str_front n) = true
  end.

Fixpoint somes {A} (l : list (option A)) : list A :=
  match l with [] => [] | Some a :: r => a :: somes r | None :: r => somes r end.

Definition ellipsis : list str := [$"..."].

(** [created k vs ts ns]: texts [ts] and call names [ns] for parameters [vs], numbering from [k] *)
Inductive created : nat -> list (list str) -> list str -> list str -> Prop :=
| cr_nil k : created k [] [] []
| cr_dots k vs ts ns : created k vs ts ns -> created k ([$"..."] :: vs) ($"... " :: ts) ($"... " :: ns)
| cr_param k v w t vs ts ns : insert_name (gen_name k) v w -> (t = unwords w \/ t = unwords w ++ $" ") ->
    created (S k) vs ts ns -> created k (v :: vs) (t :: ts) (gen_name k :: ns).

(** a parameter to which a name can be given *)
Definition nameable (v : list str) : Prop := v = ellipsis \/ exists n w, insert_name n v w.

(** the one parameter [void], in any case *)
Definition void_param (vs : list (list str)) : Prop := exists t, vs = [[t]] /\ strcaseeq t $"void" = true.

(** a parameter with the name [-param=read] should report *)
Definition rd_param (v : list str) (o : option str) : Prop :=
  match o with
  | None => v = ellipsis
  | Some n => exists d, decl_ok d /\ param_form d /\ written d = v /\ decl_name d = n
  end.

(** [s] is asked for by the filters *)
Definition wanted (pfx syms : list str) (s : str) : Prop :=
  (pfx = [] /\ syms = []) \/ (exists x r, In x pfx /\ s = x ++ r) \/ In s syms.

(** all symbol names of the tables *)
Definition names_of (t : tables) : list str := map p_symbol (t_funcs t ++ t_objs t).

Definition by_prefix (pfx : list str) (p : proto) : bool := is_prefixed (p_symbol p) pfx.

Definition by_list (syms : list str) (p : proto) : bool := existsb (str_eqb (p_symbol p)) syms.

(** the selected part of one table, in order: the ones matching -P, then the others listed by -S *)
Definition pick (pfx syms : list str) (l : list proto) : list proto :=
  match pfx, syms with
  | [], [] => l
  | _, _ => filter (by_prefix pfx) l ++ filter (fun p => by_list syms p && negb (by_prefix pfx p)) l
  end.
