(** Reading template lines as C before they are filled in, for C92: tokens with placeholders, conditions of the preprocessor as
    formulas, syntax trees with placeholders, and what they become for a configuration.  Definitions only (for proofs: the statement
    of C92 does not mention them). *)
From Coq Require Import Ascii String List Bool Arith.
From Verif Require Import Str Parse ParamNames Prefix Substitute SpecSubstitute SpecTemplates SpecCLang SpecCProg.
Import ListNotations.

(* ---------------------------------------------------------------- tokens *)

Inductive schar := SC (c : ascii) | SH (h : hole).
Definition tname := list schar.
Inductive stok := KWord (n : tname) | KText (n : tname) | KChar (n : tname) | KOp (s : str) | KEnd | KGlue | KBad | KHole (h : hole).
Inductive smode :=
| SCode | SWord (n : tname) | SOp (c : ascii) | SSlash | SLine | SBlock | SStar | SText (q : ascii) (n : tname) | SEsc (q : ascii) (n : tname) | SBack (line : bool)
| SHole (h : hole) | SPad (n : tname) (h : hole).

Definition ichar (v : hole -> str) (c : schar) : str := match c with SC a => [a] | SH h => v h end.
Definition iname (v : hole -> str) (n : tname) : str := flat_map (ichar v) n.
(** the tokens of a text by itself *)
Definition pending (m : cmode) : list tok := match m with MWord w => [TWord w] | _ => [] end.
Definition own_tokens (s : str) : list tok := snd (lex_from MCode s) ++ pending (fst (lex_from MCode s)).
Definition itok (v : hole -> str) (t : stok) : list tok :=
  match t with
  | KWord n => [TWord (iname v n)]
  | KText n => [TText (iname v n)]
  | KChar n => [TChar (iname v n)]
  | KOp s => [TOp s]
  | KEnd => [TEnd]
  | KGlue => [TGlue]
  | KBad => [TBad]
  | KHole h => own_tokens (v h)
  end.
Definition itoks (v : hole -> str) (l : list stok) : list tok := flat_map (itok v) l.
Definition utoks (v : hole -> str) (l : list stok) : list tok := unglued (itoks v l).
Definition imode (v : hole -> str) (m : smode) : cmode :=
  match m with
  | SCode => MCode
  | SWord n => MWord (iname v n)
  | SOp c => MOp c
  | SSlash => MSlash
  | SLine => MLine
  | SBlock => MBlock
  | SStar => MStar
  | SText q n => MText q (iname v n)
  | SEsc q n => MEsc q (iname v n)
  | SBack l => MBack l
  | SHole h => fst (lex_from MCode (v h))
  | SPad n h => fst (lex_from (MWord (iname v n)) (v h))
  end.

(** names with blanks behind them, and the names *)
Definition pad_hole (h : hole) : bool := match h with HFuncPad | HObjPad => true | _ => false end.
Definition unpad (h : hole) : hole := match h with HFuncPad => HFunc | HObjPad => HObj | h => h end.
Definition word_hole (h : hole) : bool := match h with HSym | HFunc | HObj => true | _ => false end.
Definition squote (q : ascii) (n : tname) : stok := if Ascii.eqb q dquote then KText n else KChar n.
Definition sfresh (c : ascii) : smode * list stok :=
  if is_ident c then (SWord [SC c], [])
  else if blank_char c then (SCode, [])
  else if Ascii.eqb c nl then (SCode, [KEnd])
  else if Ascii.eqb c "/" then (SSlash, [])
  else if Ascii.eqb c dquote || Ascii.eqb c "'" then (SText c [], [])
  else if Ascii.eqb c bslash then (SBack false, [])
  else if can_pair c then (SOp c, [])
  else (SCode, [KOp [c]]).
Definition safter (l : list stok) (r : smode * list stok) : smode * list stok := (fst r, l ++ snd r).
Definition slex_lit (m : smode) (c : ascii) : option (smode * list stok) :=
  match m with
  | SCode => Some (sfresh c)
  | SWord n => Some (if is_ident c then (SWord (n ++ [SC c]), []) else safter (if Ascii.eqb c "(" then [KWord n; KGlue] else [KWord n]) (sfresh c))
  | SOp d => Some (if is_pair d c then (SCode, [KOp [d; c]]) else safter [KOp [d]] (sfresh c))
  | SSlash => Some (if Ascii.eqb c "*" then (SBlock, []) else if Ascii.eqb c "/" then (SLine, []) else safter [KOp $"/"] (sfresh c))
  | SLine => Some (if Ascii.eqb c nl then (SCode, [KEnd]) else if Ascii.eqb c bslash then (SBack true, []) else (SLine, []))
  | SBlock => Some (if Ascii.eqb c "*" then SStar else SBlock, [])
  | SStar => Some (if Ascii.eqb c "/" then SCode else if Ascii.eqb c "*" then SStar else SBlock, [])
  | SText q n => Some (if Ascii.eqb c q then (SCode, [squote q n])
                       else if Ascii.eqb c nl then (SCode, [KBad; KEnd])
                       else if Ascii.eqb c bslash then (SEsc q n, [])
                       else (SText q (n ++ [SC c]), []))
  | SEsc q n => Some (if Ascii.eqb c nl then (SText q n, []) else (SText q (n ++ [SC bslash; SC c]), []))
  | SBack line => Some (if Ascii.eqb c nl then (if line then SLine else SCode, [])
                        else if line then (if Ascii.eqb c bslash then SBack true else SLine, []) else safter [KBad] (sfresh c))
  | SHole h => if blank_char c || Ascii.eqb c ")" || Ascii.eqb c "," then Some (safter [KHole h] (sfresh c)) else None
  | SPad n h => if blank_char c then Some (safter [KWord (n ++ [SH (unpad h)])] (sfresh c)) else None
  end.
Definition slex_hole (m : smode) (h : hole) : option (smode * list stok) :=
  match m with
  | SCode => Some (if word_hole h then SWord [SH h] else SHole h, [])
  | SWord n => if word_hole h then Some (SWord (n ++ [SH h]), []) else if pad_hole h then Some (SPad n h, []) else None
  | SText q n => if word_hole h && negb (is_ident q) then Some (SText q (n ++ [SH h]), []) else None
  | SLine => if word_hole h then Some (SLine, []) else None
  | SBlock | SStar => if word_hole h then Some (SBlock, []) else None
  | _ => None
  end.
Definition slex_char (m : smode) (c : schar) : option (smode * list stok) :=
  match c with SC c => slex_lit m c | SH h => slex_hole m h end.
Fixpoint slex (m : smode) (l : list schar) : option (smode * list stok) :=
  match l with
  | [] => Some (m, [])
  | c :: r => match slex_char m c with
              | Some (m1, t1) => match slex m1 r with Some (m2, t2) => Some (m2, t1 ++ t2) | None => None end
              | None => None
              end
  end.

(** template lines: the class of symbols for which they are repeated *)
Definition schars (p : list part) : list schar := flat_map (fun p => match p with Lit s => map SC s | Hole h => [SH h] end) p.
Definition sline (data : str) : option class * list schar :=
  let p := parts 0 data in
  (match holes p with [] => None | h :: _ => Some (hole_class h) end, schars p ++ [SC nl]).
Inductive sel := XTok (t : stok) | XEach (k : class) (l : list stok).
Definition slex_line (m : smode) (l : option class * list schar) : option (smode * list sel) :=
  match fst l with
  | None => match slex m (snd l) with Some (m, t) => Some (m, map XTok t) | None => None end
  | Some k => match m with
              | SCode => match slex SCode (snd l) with Some (SCode, t) => Some (SCode, [XEach k t]) | _ => None end
              | _ => None
              end
  end.
Fixpoint slex_lines (m : smode) (l : list (option class * list schar)) : option (smode * list sel) :=
  match l with
  | [] => Some (m, [])
  | x :: r => match slex_line m x with
              | Some (m1, t1) => match slex_lines m1 r with Some (m2, t2) => Some (m2, t1 ++ t2) | None => None end
              | None => None
              end
  end.

(* ---------------------------------------------------------------- the preprocessor *)

Inductive form := FTrue | FDef (x : str) | FNot (a : form) | FAnd (a b : form) | FOr (a b : form).
Fixpoint feval (cfg : str -> bool) (f : form) : bool :=
  match f with
  | FTrue => true
  | FDef x => cfg x
  | FNot a => negb (feval cfg a)
  | FAnd a b => feval cfg a && feval cfg b
  | FOr a b => feval cfg a || feval cfg b
  end.
Inductive gout :=
| GTok (t : stok)
| GEach (k : class) (l : list stok)
| GDef (x : str) (call : bool) (l : list tok)
| GEachDef (k : class) (x : stok) (call : bool) (l : list stok)
| GUndef (x : str).
Definition gel := (list form * gout)%type.

(** lines *)
Inductive sl := SPlain (l : list stok) | SEach (k : class) (l : list stok).
Fixpoint ssplit (acc : list stok) (l : list sel) : option (list sl) :=
  match l with
  | [] => match acc with [] => Some [] | _ => None end
  | XTok KEnd :: r => option_map (cons (SPlain acc)) (ssplit [] r)
  | XTok (KHole _) :: _ => None
  | XTok t :: r => ssplit (acc ++ [t]) r
  | XEach k t :: r => match acc, rev t with [], KEnd :: _ => option_map (cons (SEach k t)) (ssplit [] r) | _, _ => None end
  end.
(** a name without placeholders *)
Fixpoint lit (n : tname) : option str :=
  match n with [] => Some [] | SC c :: r => option_map (cons c) (lit r) | SH _ :: _ => None end.
Definition lit_tok (t : stok) : option tok :=
  match t with
  | KWord n => option_map TWord (lit n)
  | KText n => option_map TText (lit n)
  | KChar n => option_map TChar (lit n)
  | KOp s => Some (TOp s)
  | KEnd => Some TEnd
  | KGlue => Some TGlue
  | KBad => Some TBad
  | KHole _ => None
  end.
Fixpoint lit_toks (l : list stok) : option (list tok) :=
  match l with
  | [] => Some []
  | t :: r => match lit_tok t, lit_toks r with Some t, Some r => Some (t :: r) | _, _ => None end
  end.
Definition sglue (t : stok) : bool := match t with KGlue => true | _ => false end.
Definition sunglued (l : list stok) : list stok := filter (fun t => negb (sglue t)) l.
(** the name defined by a repeated line begins with this *)
Fixpoint front (n : tname) : str := match n with SC c :: r => c :: front r | _ => [] end.
Definition def_front (t : stok) : str := match t with KWord n => front n | _ => [] end.

Definition of_tok (t : tok) : stok :=
  match t with
  | TWord w => KWord (map SC w)
  | TText w => KText (map SC w)
  | TChar w => KChar (map SC w)
  | TOp o => KOp o
  | TEnd => KEnd
  | TGlue => KGlue
  | TBad => KBad
  end.

Record spst := mksp { sp_groups : list (form * form); sp_defs : list (str * form); sp_fronts : list str }.
Definition sdef (s : spst) (x : str) : form := match lookup x (sp_defs s) with Some f => f | None => FDef x end.
Definition here (s : spst) : list form := rev (map fst (sp_groups s)).
Definition all_of (l : list form) : form := fold_right FAnd FTrue l.
Definition add_def (x : str) (b : bool) (s : spst) : spst :=
  let old := sdef s x in
  mksp (sp_groups s) ((x, match here s with [] => if b then FTrue else FNot FTrue | l => if b then FOr (all_of l) old else FAnd (FNot (all_of l)) old end) :: sp_defs s) (sp_fronts s).
Fixpoint ftrans (s : spst) (a : cexp) : option form :=
  match a with
  | CDef x => if existsb (fun p => starts_with p x) (sp_fronts s) then None else Some (sdef s x)
  | CNot a => option_map FNot (ftrans s a)
  | CAnd a b => match ftrans s a, ftrans s b with Some a, Some b => Some (FAnd a b) | _, _ => None end
  | COr a b => match ftrans s a, ftrans s b with Some a, Some b => Some (FOr a b) | _, _ => None end
  end.
Definition spp_plain (s : spst) (l : line) : option (spst * list gel) :=
  match l with
  | LCode t => Some (s, map (fun t => (here s, GTok (of_tok t))) t)
  | LIf a => match ftrans s a with Some f => Some (mksp ((f, f) :: sp_groups s) (sp_defs s) (sp_fronts s), []) | None => None end
  | LElif a => match sp_groups s, ftrans s a with
               | (_, d) :: r, Some f => Some (mksp ((FAnd (FNot d) f, FOr d f) :: r) (sp_defs s) (sp_fronts s), [])
               | _, _ => None
               end
  | LElse => match sp_groups s with (_, d) :: r => Some (mksp ((FNot d, FTrue) :: r) (sp_defs s) (sp_fronts s), []) | [] => None end
  | LEndif => match sp_groups s with _ :: r => Some (mksp r (sp_defs s) (sp_fronts s), []) | [] => None end
  | LDefine x c t => Some (add_def x true s, [(here s, GDef x c t)])
  | LUndef x => Some (add_def x false s, [(here s, GUndef x)])
  | LOther => Some (s, [])
  end.
(** a repeated line: code without directives, or one definition *)
Fixpoint code_lines (start : bool) (l : list stok) : option (list stok) :=
  match l with
  | [] => if start then Some [] else None
  | KEnd :: r => code_lines true r
  | KHole h :: r => if start then None else option_map (cons (KHole h)) (code_lines false r)
  | KOp o :: r => if start && str_eqb o $"#" then None else option_map (cons (KOp o)) (code_lines false r)
  | KGlue :: r => if start then None else code_lines false r
  | t :: r => option_map (cons t) (code_lines false r)
  end.
Fixpoint one_line (l : list stok) : option (list stok) :=
  match l with
  | [] => None
  | [KEnd] => Some []
  | KEnd :: _ => None
  | t :: r => option_map (cons t) (one_line r)
  end.
Definition def_name (t : stok) : bool := match t with KWord _ => true | KHole HFuncPad | KHole HObjPad => true | _ => false end.
Definition spp_each (s : spst) (k : class) (l : list stok) : option (spst * list gel) :=
  match l with
  | KOp h :: KWord d :: x :: r =>
      if str_eqb h $"#" then
        match one_line r with
        | Some r =>
            if def_name x && (match r with KHole _ :: _ => false | _ => true end) && (match lit d with Some d => str_eqb d $"define" | None => false end)
            then Some (mksp (sp_groups s) (sp_defs s) (def_front x :: sp_fronts s), [(here s, GEachDef k x (match r with KGlue :: _ => true | _ => false end) (sunglued r))])
            else None
        | None => None
        end
      else option_map (fun t => (s, [(here s, GEach k t)])) (code_lines true l)
  | _ => option_map (fun t => (s, [(here s, GEach k t)])) (code_lines true l)
  end.
Definition spp_line (s : spst) (l : sl) : option (spst * list gel) :=
  match l with
  | SPlain t => match lit_toks t with
                | Some t => match classify t with Some l => spp_plain s l | None => None end
                | None => None
                end
  | SEach k t => spp_each s k t
  end.
Fixpoint spp (s : spst) (l : list sl) : option (spst * list gel) :=
  match l with
  | [] => Some (s, [])
  | x :: r => match spp_line s x with
              | Some (s1, t1) => match spp s1 r with Some (s2, t2) => Some (s2, t1 ++ t2) | None => None end
              | None => None
              end
  end.
Definition sread (lines : list str) : option (list gel) :=
  match slex_lines SCode (map sline lines) with
  | Some (SCode, t) => match ssplit [] t with
                       | Some l => match spp (mksp [] [] []) l with Some (mksp [] _ _, o) => Some o | _ => None end
                       | None => None
                       end
  | _ => None
  end.

(** what is left for a configuration *)
Definition envs (c : config) (k : class) : list (hole -> str) :=
  match k with
  | CFunction => map (value_of (longest (class_names c k))) (c_funcs c)
  | CObject => map (value_of (longest (class_names c k))) (c_objs c)
  | CSymbol => map (symbol_value true) (c_funcs c) ++ map (symbol_value false) (c_objs c)
  end.
Definition no_value (h : hole) : str := [].
Definition iout (cfg : str -> bool) (c : config) (o : gel) : list pout :=
  if forallb (feval cfg) (fst o) then
    match snd o with
    | GTok t => map PTok (utoks no_value [t])
    | GEach k l => flat_map (fun v => map PTok (utoks v l)) (envs c k)
    | GDef x b l => [PDefine x b l]
    | GEachDef k x b l => flat_map (fun v => match itok v x with [TWord n] => [PDefine n b (utoks v l)] | _ => [] end) (envs c k)
    | GUndef x => [PUndef x]
    end
  else [].

(** without what is not used if the macros [no] are not defined *)
Fixpoint tri (no : list str) (f : form) : option bool :=
  match f with
  | FTrue => Some true
  | FDef x => if existsb (str_eqb x) no then Some false else None
  | FNot a => option_map negb (tri no a)
  | FAnd a b => match tri no a, tri no b with
                | Some false, _ | _, Some false => Some false
                | Some true, r => r
                | _, _ => None
                end
  | FOr a b => match tri no a, tri no b with
               | Some true, _ | _, Some true => Some true
               | Some false, r => r
               | _, _ => None
               end
  end.
Definition pruned (no : list str) (o : gel) : list gel :=
  if existsb (fun f => match tri no f with Some false => true | _ => false end) (fst o) then []
  else [(filter (fun f => match tri no f with Some true => false | _ => true end) (fst o), snd o)].

(* ---------------------------------------------------------------- syntax trees *)

Inductive texpr :=
| XNone | XId (x : tname) | XStr (x : tname) | XChr (x : str)
| XParen (e : texpr) | XCall (f : str) (args : list texpr) | XField (e : texpr) (x : str) | XArrow (e : texpr) (x : str) | XIndex (e i : texpr)
| XNot (e : texpr) | XNeg (e : texpr) | XDeref (e : texpr) | XAddr (e : texpr) | XCast (ty : list stok) (e : texpr) | XBin (o : str) (a b : texpr) | XSet (a b : texpr)
| XSizeof (e : texpr) | XCat (a b : texpr).
(** statements that may be repeated *)
Inductive tstmt :=
| YExpr (e : texpr) | YIf (c : texpr) (yes : list tstmt) | YReturn (e : option texpr) | YCase (e : texpr).
(** statements with repeated ones and with conditions of the preprocessor in them *)
Inductive bstmt :=
| BExpr (e : texpr) | BDecl (ty : list tok) (x : str) (array : bool) (init : option texpr)
| BIf (c : texpr) (yes : list bstmt) (no : option (list bstmt))
| BIfEach (e : texpr) (o : str) (each : texpr) (yes : list bstmt)    (* if (e o each o each ...) *)
| BReturn (e : option texpr) | BSwitch (e : texpr) (body : list bstmt) | BCase (e : texpr) | BDefault | BBreak
| BEach (l : list tstmt)
| BGuard (g : list form) (l : list bstmt).
Inductive titem :=
| JFunc (head : list tok) (name : str) (params : list (list tok * str)) (body : list bstmt)
| JCode (l : list tok)
| JMacro (x : str) (m : macro)
| JUndef (x : str)
| JEachMacro (k : class) (x : stok) (l : list stok).
Definition tprogram := list (list form * titem).

Fixpoint inst_e (v : hole -> str) (e : texpr) : expr :=
  match e with
  | XNone => ENone
  | XId x => EId (iname v x)
  | XStr x => EStr (iname v x)
  | XChr x => EChr x
  | XParen e => EParen (inst_e v e)
  | XCall f args => ECall f (map (inst_e v) args)
  | XField e x => EField (inst_e v e) x
  | XArrow e x => EArrow (inst_e v e) x
  | XIndex e i => EIndex (inst_e v e) (inst_e v i)
  | XNot e => ENot (inst_e v e)
  | XNeg e => ENeg (inst_e v e)
  | XDeref e => EDeref (inst_e v e)
  | XAddr e => EAddr (inst_e v e)
  | XCast ty e => ECast (utoks v ty) (inst_e v e)
  | XBin o a b => EBin o (inst_e v a) (inst_e v b)
  | XSet a b => ESet (inst_e v a) (inst_e v b)
  | XSizeof e => ESizeof (inst_e v e)
  | XCat a b => ECat (inst_e v a) (inst_e v b)
  end.
Fixpoint inst_t (v : hole -> str) (s : tstmt) : stmt :=
  match s with
  | YExpr e => SExpr (inst_e v e)
  | YIf c yes => SIf (inst_e v c) (map (inst_t v) yes) None
  | YReturn e => SReturn (option_map (inst_e v) e)
  | YCase e => SCase (inst_e v e)
  end.
Section Inst.
Variables (cfg : str -> bool) (c : config).
Definition ie : texpr -> expr := inst_e no_value.
Fixpoint inst_b (s : bstmt) : list stmt :=
  match s with
  | BExpr e => [SExpr (ie e)]
  | BDecl ty x array init => [SDecl (unglued ty) x array (option_map ie init)]
  | BIf e yes no => [SIf (ie e) (flat_map inst_b yes) (option_map (flat_map inst_b) no)]
  | BIfEach e o each yes => [SIf (fold_left (fun a v => EBin o a (inst_e v each)) (envs c CSymbol) (ie e)) (flat_map inst_b yes) None]
  | BReturn e => [SReturn (option_map ie e)]
  | BSwitch e body => [SSwitch (ie e) (flat_map inst_b body)]
  | BCase e => [SCase (ie e)]
  | BDefault => [SDefault]
  | BBreak => [SBreak]
  | BEach l => flat_map (fun v => map (inst_t v) l) (envs c CSymbol)
  | BGuard g l => if forallb (feval cfg) g then flat_map inst_b l else []
  end.
Definition inst_i (i : titem) : list citem :=
  match i with
  | JFunc head name params body => [IFunc (mkfunc (unglued head) name (map (fun p => (unglued (fst p), snd p)) params) (flat_map inst_b body))]
  | JCode l => [ICode (unglued l)]
  | JMacro x m => [IMacro x m]
  | JUndef x => [IUndef x]
  | JEachMacro k x l => flat_map (fun v => match itok v x with [TWord n] => [IMacro n (mkmacro None (MRaw (utoks v l)))] | _ => [] end) (envs c k)
  end.
Definition inst (p : tprogram) : list citem := flat_map (fun x => if forallb (feval cfg) (fst x) then inst_i (snd x) else []) p.
End Inst.

(* ---------------------------------------------------------------- as tokens *)

Definition ko (s : string) : stok := KOp $s.
Definition kw (s : string) : stok := KWord (map SC $s).
Fixpoint commas (l : list (list stok)) : list stok := match l with [] => [] | [x] => x | x :: r => x ++ ko "," :: commas r end.
Fixpoint pe (e : texpr) : list stok :=
  match e with
  | XNone => []
  | XId x => [KWord x]
  | XStr s => [KText s]
  | XChr s => [KChar (map SC s)]
  | XParen e => ko "(" :: pe e ++ [ko ")"]
  | XCall f args => KWord (map SC f) :: ko "(" :: commas (map pe args) ++ [ko ")"]
  | XField e x => pe e ++ [ko "."; KWord (map SC x)]
  | XArrow e x => pe e ++ [ko "->"; KWord (map SC x)]
  | XIndex e i => pe e ++ ko "[" :: pe i ++ [ko "]"]
  | XNot e => ko "!" :: pe e
  | XNeg e => ko "-" :: pe e
  | XDeref e => ko "*" :: pe e
  | XAddr e => ko "&" :: pe e
  | XCast ty e => ko "(" :: ty ++ ko ")" :: pe e
  | XBin o a b => pe a ++ KOp o :: pe b
  | XSet a b => pe a ++ ko "=" :: pe b
  | XSizeof e => kw "sizeof" :: ko "(" :: pe e ++ [ko ")"]
  | XCat a b => pe a ++ pe b
  end.
Fixpoint pt (s : tstmt) : list stok :=
  match s with
  | YExpr e => pe e ++ [ko ";"]
  | YIf c yes => kw "if" :: ko "(" :: pe c ++ ko ")" :: ko "{" :: flat_map pt yes ++ [ko "}"]
  | YReturn e => kw "return" :: match e with Some e => pe e | None => [] end ++ [ko ";"]
  | YCase e => kw "case" :: pe e ++ [ko ":"]
  end.
Definition at_ (g : list form) (l : list stok) : list gel := map (fun t => (g, GTok t)) l.
Fixpoint pb (g : list form) (s : bstmt) : list gel :=
  match s with
  | BExpr e => at_ g (pe e ++ [ko ";"])
  | BDecl ty x array init =>
      at_ g (map of_tok ty ++ KWord (map SC x) :: (if array then [ko "["; ko "]"] else []) ++ match init with Some e => ko "=" :: pe e | None => [] end ++ [ko ";"])
  | BIf c yes no =>
      at_ g (kw "if" :: ko "(" :: pe c ++ [ko ")"; ko "{"]) ++ flat_map (pb g) yes ++ at_ g [ko "}"] ++
      match no with Some l => at_ g [kw "else"; ko "{"] ++ flat_map (pb g) l ++ at_ g [ko "}"] | None => [] end
  | BIfEach e o each yes =>
      at_ g (kw "if" :: ko "(" :: pe e) ++ (g, GEach CSymbol (KOp o :: pe each)) :: at_ g [ko ")"; ko "{"] ++ flat_map (pb g) yes ++ at_ g [ko "}"]
  | BReturn e => at_ g (kw "return" :: match e with Some e => pe e | None => [] end ++ [ko ";"])
  | BSwitch e body => at_ g (kw "switch" :: ko "(" :: pe e ++ [ko ")"; ko "{"]) ++ flat_map (pb g) body ++ at_ g [ko "}"]
  | BCase e => at_ g (kw "case" :: pe e ++ [ko ":"])
  | BDefault => at_ g [kw "default"; ko ":"]
  | BBreak => at_ g [kw "break"; ko ";"]
  | BEach l => [(g, GEach CSymbol (flat_map pt l))]
  | BGuard g' l => flat_map (pb (g ++ g')) l
  end.
Definition pi (x : list form * titem) : list gel :=
  let g := fst x in
  match snd x with
  | JFunc head name params body =>
      at_ g (map of_tok (head ++ TWord name :: pn "(" :: print_params params ++ [pn ")"; pn "{"])) ++ flat_map (pb g) body ++ at_ g [ko "}"]
  | JCode l => at_ g (map of_tok l)
  | JMacro x m => [(g, GDef x (fst (print_m m)) (snd (print_m m)))]
  | JUndef x => [(g, GUndef x)]
  | JEachMacro k x l => [(g, GEachDef k x false l)]
  end.
Definition pprogram (p : tprogram) : list gel := flat_map pi p.
