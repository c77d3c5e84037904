(** Specification vocabulary for whole runs: the generated files, the headers a user feeds in and the loading code that comes out. *)
From Coq Require Import Ascii String List Bool Arith NArith.
From Verif Require Import Str Lex SpecLex SpecTokenize Parse ParamNames SpecParse SpecTables Prefix Substitute SpecSubstitute Options Generate SpecGenerate.
From Verif Require Import SpecTemplates Templates ClangAst.
From Verif Require SpecClangAst.
Import ListNotations.

(** the program comes with its own templates and is used to make a loader from them *)
Definition ordinary_run (e : env) (s : settings) : Prop :=
  (forall t, e_builtin e t = shipped t) /\ o_print s = false /\ o_template s = [] /\ o_tpath s = [] /\ usable_prefix (o_pfxs s).

(** [t] is the filled templates [ts], as written; with [-line] there are line directives between the texts *)
Definition filled_in (c : config) (ts : list tname) (t : str) : Prop :=
  exists ws n, substitute c (map shipped ts) = Ok (ws, n) /\ t = output ws /\ Verif.SpecSubstitute.texts ws = filled_texts c (map shipped ts) /\
    (c_line c = false -> t = concat (filled_texts c (map shipped ts))).

(** the header and the body (see C63 for the parts) *)
Definition header_of (e : env) (s : settings) (f o : list proto) (defs : str) (tdefs : list str) (t : str) : Prop :=
  exists filled n1 n2, filled_in (config_of s f o) (header_templates s) filled /\
    t = header_text s (top_text e s (license_text (shipped TLicense)))
          (middle_text s (macros_text (config_of s [] []) (shipped TFilenameMacros)) defs tdefs filled) n1 n2.
Definition body_of (e : env) (s : settings) (f o : list proto) (t : str) : Prop :=
  exists filled, filled_in (config_of s f o) (body_templates s) filled /\ t = body_text e s (license_text (shipped TLicense)) filled.

(* ------------------------------------------------------------ C47 *)

(** parameters the program can handle in a parameter mode *)
Definition params_fit (m : param_mode) (gs : list (list str)) : Prop :=
  gs = [] \/ void_param gs \/
  match m with
  | PSkip => True
  | PRead => exists ns, Forall2 rd_param gs ns
  | PCreate => Forall nameable gs
  end.
(** a simple declaration: well-formed; the type before a declarator in parentheses is one word or a pointer; parameters
    separated by commas and fit for the mode; no two opening parentheses next to each other *)
Definition simple_decl (m : param_mode) (d : decl) : Prop :=
  decl_ok d /\ (paren_form d -> single_or_pointer (decl_type_tokens d)) /\
  (forall a b, written d <> a ++ lparen :: lparen :: b) /\
  exists gs, decl_params d = comma_join gs /\ Forall no_top_comma gs /\ closed_groups gs /\ (gs = [] \/ last gs [] <> []) /\
    params_fit m gs.
(** the text of a header in which the declarations are [ds]: besides them there are only comments, directives, type
    definitions and lone semicolons *)
Definition header_with (ds : list decl) (text : str) : Prop :=
  exists ps ss, Forall piece_ok ps /\ well_placed true ps /\ text = text_of ps /\
    pieces_tokens 1%N ps = flat_map stmt_tokens ss /\ Forall stmt_ok ss /\ flat_map stmt_protos ss = map written ds.

Definition is_function_decl (d : decl) : bool := match decl_kind d with KFunction => true | _ => false end.
(** the declared names, functions first *)
Definition function_names (ds : list decl) : list str := map decl_name (filter is_function_decl ds).
Definition object_names (ds : list decl) : list str := map decl_name (filter (fun d => negb (is_function_decl d)) ds).
Definition declared_names (ds : list decl) : list str := function_names ds ++ object_names ds.

(** The places of the generated code at which a symbol is looked up in the library, and what is generated there for one
    symbol: [U] and [l] are the prefix in upper and lower case, [t] the pointer type, [n] the name.  First the function that
    loads all symbols; the C and C++ formats also load a symbol by number and by name. *)
Definition load_sites (f : out_format) (U l t n : str) : list str :=
  match f with
  | FmtC => [
$"    /* " ++ n ++ $" */
    if ((" ++ U ++ $"_RAWPTR_" ++ n ++ $" =
            (" ++ t ++ $")
                _" ++ l ++ $"_sym(""" ++ n ++ $""", _T(""" ++ n ++ $"""))) == NULL) {
        return false;
    }

";
$"    /* " ++ n ++ $" */
    case " ++ U ++ $"_LOAD_" ++ n ++ $":
        if (!" ++ U ++ $"_RAWPTR_" ++ n ++ $") {
            " ++ U ++ $"_RAWPTR_" ++ n ++ $" =
                (" ++ t ++ $")
                    _" ++ l ++ $"_sym(""" ++ n ++ $""", _T(""" ++ n ++ $"""));
        }
        return (" ++ U ++ $"_RAWPTR_" ++ n ++ $" != NULL);

";
$"
        curr = """ ++ n ++ $""";
        curr_len = sizeof(""" ++ n ++ $""") - 1;
        if (len == curr_len && strcmp(symbol + pfxlen, curr + pfxlen) == 0) {
            if (!" ++ U ++ $"_RAWPTR_" ++ n ++ $") {
                " ++ U ++ $"_RAWPTR_" ++ n ++ $" =
                    (" ++ t ++ $")
                        _" ++ l ++ $"_sym(""" ++ n ++ $""", _T(""" ++ n ++ $"""));
            }
            return (" ++ U ++ $"_RAWPTR_" ++ n ++ $" != NULL);
        }
"]
  | FmtCxx => [
$"    /* " ++ n ++ $" */
    if ((" ++ U ++ $"_RAWPTR_" ++ n ++ $" =
        sym_load<" ++ t ++ $">
            (""" ++ n ++ $""")) == nullptr) {
        return false;
    }

";
$"    /* " ++ n ++ $" */
    case " ++ U ++ $"_LOAD_" ++ n ++ $":
        if (!" ++ U ++ $"_RAWPTR_" ++ n ++ $") {
            " ++ U ++ $"_RAWPTR_" ++ n ++ $" =
                sym_load<" ++ t ++ $">
                    (""" ++ n ++ $""");
        }
        return (" ++ U ++ $"_RAWPTR_" ++ n ++ $" != nullptr);

";
$"
        curr = """ ++ n ++ $""";
        curr_len = sizeof(""" ++ n ++ $""") - 1;
        if (len == curr_len && ::strcmp(symbol + pfxlen, curr + pfxlen) == 0) {
            if (!" ++ U ++ $"_RAWPTR_" ++ n ++ $") {
                " ++ U ++ $"_RAWPTR_" ++ n ++ $" =
                    sym_load<" ++ t ++ $">
                        (""" ++ n ++ $""");
            }
            return (" ++ U ++ $"_RAWPTR_" ++ n ++ $" != nullptr);
        }
"]
  | FmtPlugin => [
$"
        /* load " ++ n ++ $" */
        plug->list[i].ptr." ++ n ++ $" =
            (" ++ t ++ $")
                _" ++ l ++ $"_call_dlsym(plug->list[i].handle, """ ++ n ++ $""");
"]
  | FmtMinimal => [
$"
    /* " ++ n ++ $" */
    " ++ l ++ $"_hndl." ++ U ++ $"_PTR_" ++ n ++ $" =
        (" ++ t ++ $")
            _" ++ U ++ $"_LOAD_SYM(""" ++ n ++ $""");
    if (!" ++ l ++ $"_hndl." ++ U ++ $"_PTR_" ++ n ++ $") {
        " ++ l ++ $"_free_library();
        return ""failed to load symbol: " ++ n ++ $""";
    }
"]
  | FmtMinimalCxx => [
$"
        /* " ++ n ++ $" */
        " ++ U ++ $"_PTR_" ++ n ++ $" =
            reinterpret_cast<" ++ t ++ $">(
                load_symbol(""" ++ n ++ $"""));
        if (!" ++ U ++ $"_PTR_" ++ n ++ $") {
            free_library();
            throw SymbolError(""" ++ n ++ $""");
        }
"]
  end.
(** the number of places *)
Definition site_count (f : out_format) : nat := match f with FmtC | FmtCxx => 3 | _ => 1 end.
(** the code at place [k] for the functions [f] and the objects [o]: one piece per symbol *)
Definition load_table (s : settings) (k : nat) (f o : list proto) : list str :=
  let code is_function e :=
    nth k (load_sites (o_format s) (m_pfx_upper (o_pfxs s)) (m_pfx_lower (o_pfxs s)) (pointer_to is_function e) (p_symbol e)) [] in
  map (code true) f ++ map (code false) o.
(** the templates with this code *)
Definition loader_templates (s : settings) : list tname := if separate s then body_templates s else header_templates s.
(** the lines of these templates that have a symbol name as a string literal *)
Definition names_symbol (data : str) : bool := has ([dquote] ++ $"%%symbol%%" ++ [dquote]) data.
Definition loading_lines (s : settings) : list str :=
  filter names_symbol (flat_map (lines_shown (config_of s [] [])) (map shipped (loader_templates s))).
(** other texts before, between and after the tables *)
Fixpoint weave {A} (gaps tables : list (list A)) : list A :=
  match gaps, tables with
  | g :: gs, t :: ts => g ++ t ++ weave gs ts
  | g :: _, [] => g
  | [], _ => []
  end.
(** texts filled in from lines that do not have a symbol name as a string literal *)
Definition other_code (c : config) (texts : list str) : Prop :=
  exists lines, Forall (fun d => names_symbol d = false) lines /\ texts = map (fun t => t ++ [nl]) (flat_map (expansion c) lines).
(** the loader made from the templates: every place at which a name is looked up has one piece per symbol, and there is no other
    place *)
Definition loader_code (s : settings) (f o : list proto) (texts : list str) : Prop :=
  exists gaps, length gaps = S (site_count (o_format s)) /\ Forall (other_code (config_of s f o)) gaps /\
    texts = weave gaps (map (fun k => load_table s k f o) (List.seq 0 (site_count (o_format s)))).

(** the input file: standard input or a readable file with this text *)
Definition input_is (e : env) (fs : str -> option node) (stdin input text : str) : Prop :=
  input <> [] /\ ((input = $"-" /\ text = stdin) \/ (input <> $"-" /\ e_readable e input = true /\ fs input = Some (Regular text))).
(** the output can be written *)
Definition can_write (e : env) (s : settings) (fs : str -> option node) : Prop :=
  if to_stdout s then True
  else if separate s then creatable e s fs (header_path s) /\ creatable e s fs (body_path s)
  else o_output s <> [] /\ creatable e s fs (o_output s).
(** the text [t] was written to the file, or printed, that is to hold the loader *)
Definition written_to (s : settings) (out : str) (w : world) (t : str) : Prop :=
  if to_stdout s then w_out w = out ++ t
  else w_fs w (if separate s then body_path s else o_output s) = Some (Regular t).
(** the texts [ts] one after the other, with line directives in between *)
Inductive interleaved : list str -> str -> Prop :=
| il_nil : interleaved [] []
| il_text x ts t : interleaved ts t -> interleaved (x :: ts) (x ++ t)
| il_line n ts t : interleaved ts t -> interleaved ts ($"#line " ++ nat_to_string n ++ [nl] ++ t).
(** the file, or standard output, that is to hold the loader holds the loader for the functions [f] and objects [o]; line
    directives occur only with [-line] *)
Definition holds_loader (s : settings) (out : str) (w : world) (f o : list proto) : Prop :=
  exists before code filled after, written_to s out w (before ++ filled ++ after) /\ loader_code s f o code /\
    interleaved code filled /\ (o_line s = false -> filled = concat code).

(** the names asked for by [-P] and [-S]: all without these options, else those with one of the prefixes, then the others that
    are listed, each in the order of declaration *)
Definition prefixed_by (pfx : list str) (n : str) : bool := existsb (fun p => starts_with p n) pfx.
Definition listed_in (syms : list str) (n : str) : bool := existsb (str_eqb n) syms.
Definition asked_for (pfx syms names : list str) : list str :=
  match pfx, syms with
  | [], [] => names
  | _, _ => filter (prefixed_by pfx) names ++ filter (fun n => listed_in syms n && negb (prefixed_by pfx n)) names
  end.

(** a declaration in a Clang AST dump with ordinary type texts (not, say, that of an unnamed structure, which has a path) *)
Definition plain_item (i : SpecClangAst.item) : Prop :=
  match i with
  | SpecClangAst.IVar _ t => declaration_text t
  | SpecClangAst.IFunc _ t ps => declaration_text t /\ Forall declaration_text ps
  end.
