(** Proofs for C93 to C96: the definitions in the header. *)
From Coq Require Import Ascii String List Bool Arith Lia.
From Verif Require Import Str StrFacts Parse ParamNames Prefix Substitute Data Generate SpecPrefix SpecSubstitute Templates SpecTemplates SpecCLang SpecCProg SpecCMacro SpecBody SpecHeader
  CTemplate CTemplateText CTemplatePP CBodyText HTemplate HTemplatePP HText HMacro.
Import ListNotations.

(* ---------------------------------------------------------------- looking for definitions *)

(** the elements that may define [x], or a name that begins with [x] *)
Definition may (exact : bool) (x : str) (g : gel) : bool :=
  match snd g with
  | GDef y _ _ | GUndef y => if exact then str_eqb x y else starts_with x y
  | GEachDef _ t _ _ => starts_with (def_front t) x || (negb exact && starts_with x (def_front t))
  | _ => false
  end.
Lemma may_ok cfg c exact x s g : may exact x g = false -> (exact = true -> s = []) -> forall o, In o (iout cfg c g) -> names_it (x ++ s) o = false.
Proof.
  intros M S o I. unfold iout in I. destruct (forallb _ (fst g)); [|contradiction]. unfold may in M.
  assert (L : forall y, (if exact then str_eqb x y else starts_with x y) = false -> str_eqb (x ++ s) y = false).
  { intros y H. apply not_true_is_false. intro E. apply str_eqb_eq in E. subst y. destruct exact.
    - rewrite (S eq_refl), app_nil_r in H. now rewrite (proj2 (str_eqb_eq x x) eq_refl) in H.
    - assert (starts_with x (x ++ s) = true) by (apply starts_with_spec; now exists s). congruence. }
  destruct (snd g) as [t|k l|y b l|k t b l|y].
  - apply in_map_iff in I as (a & <- & _). reflexivity.
  - apply in_flat_map in I as (v & _ & I). apply in_map_iff in I as (a & <- & _). reflexivity.
  - destruct I as [<-|[]]. now apply L.
  - apply in_flat_map in I as (v & _ & I). apply orb_false_iff in M as [M1 M2].
    destruct t as [m| | | | | | |h]; try (cbn [def_front starts_with] in M1; discriminate M1). cbn [itok] in I. destruct I as [<-|[]]. cbn [names_it named def_front] in *.
    apply not_true_is_false. intro E. apply str_eqb_eq in E. pose proof (front_name v m) as F. rewrite <- E in F.
    destruct (starts_either _ _ _ F) as [X|X]; [congruence|]. destruct exact.
    + rewrite (S eq_refl), app_nil_r in F. congruence.
    + cbn [negb andb] in M2. congruence.
  - destruct I as [<-|[]]. now apply L.
Qed.
Lemma filter_def cfg c exact x s l : (exact = true -> s = []) -> last_def (x ++ s) (outs cfg c l) = last_def (x ++ s) (outs cfg c (filter (may exact x) l)).
Proof.
  intro S. induction l as [|g l IH]; [reflexivity|]. change (g :: l) with ([g] ++ l). rewrite outs_app, last_def_app, IH, filter_app, outs_app, last_def_app.
  destruct (last_def _ (outs cfg c (filter (may exact x) l))); [reflexivity|]. cbn [filter]. destruct (may exact x g) eqn:M; [reflexivity|].
  apply last_def_none. intros o I. unfold outs in I; cbn [flat_map] in I. rewrite app_nil_r in I. exact (may_ok cfg c exact x s g M S o I).
Qed.
Lemma exact_def cfg c x l f : filter (may true x) l = f -> last_def x (outs cfg c l) = last_def x (outs cfg c f).
Proof. intros <-. pose proof (filter_def cfg c true x [] l (fun _ => eq_refl)) as H. now rewrite app_nil_r in H. Qed.
Lemma front_def cfg c x s l f : filter (may false x) l = f -> last_def (x ++ s) (outs cfg c l) = last_def (x ++ s) (outs cfg c f).
Proof. intros <-. apply filter_def. discriminate. Qed.

Lemma each_none {A} p (f : A -> str) (B : A -> list tok) b vs n : ~ In n (map f vs) -> last_def (p ++ n) (map (fun v => PDefine (p ++ f v) b (B v)) vs) = None.
Proof.
  intro H. apply last_def_none. intros o I. apply in_map_iff in I as (v & <- & I). cbn [names_it named]. apply not_true_is_false. intro E. apply str_eqb_eq, app_inv_head in E.
  apply H. rewrite E. now apply in_map.
Qed.
Lemma each_some {A} p (f : A -> str) (B : A -> list tok) b vs n :
  In n (map f vs) -> exists v, In v vs /\ f v = n /\ last_def (p ++ n) (map (fun v => PDefine (p ++ f v) b (B v)) vs) = Some (PDefine (p ++ n) b (B v)).
Proof.
  induction vs as [|v vs IH]; intro I; [contradiction|]. cbn [map last_def]. destruct (in_dec (list_eq_dec ascii_dec) n (map f vs)) as [J|J].
  - destruct (IH J) as (w & W & E & L). exists w. split; [now right|]. split; [exact E|]. now rewrite L.
  - rewrite (each_none p f B b vs n J). destruct I as [<-|I]; [|contradiction]. exists v. split; [now left|]. split; [reflexivity|]. cbn [names_it named].
    now rewrite (proj2 (str_eqb_eq _ _) eq_refl).
Qed.
Lemma flat_map_map {A B C} (f : B -> list C) (g : A -> B) l : flat_map f (map g l) = flat_map (fun x => f (g x)) l.
Proof. induction l as [|x l IH]; [reflexivity|]. cbn [map flat_map]. now rewrite IH. Qed.
Lemma flat_map_one {A B} (f : A -> list B) g l : (forall x, f x = [g x]) -> flat_map f l = map g l.
Proof. intro H. induction l as [|x l IH]; [reflexivity|]. cbn [flat_map map]. now rewrite H, IH. Qed.

(* ---------------------------------------------------------------- the elements *)

Definition w_lit (s : string) (h : hole) : stok := KWord (map SC $s ++ [SH h]).
Definition f_wrap : form := FOr (FDef $"GDO_WRAP_FUNCTIONS") (FOr (FAnd (FAnd (FDef $"GDO_ENABLE_AUTOLOAD_LAZY") (FNot (FDef $"GDO_ENABLE_AUTOLOAD"))) FTrue) (FDef $"GDO_ENABLE_AUTOLOAD")).
Definition f_vis : form := FDef $"GDO_WRAP_VISIBILITY".
Definition f_sep : form := FAnd (FDef $"GDO_SEPARATE") (FAnd (FNot (FDef $"GDO_INCLUDED_IN_BODY")) (FNot (FDef $"GDO_DISABLE_ALIASING"))).
Definition g_aliases : list gel :=
  [([f_sep; FNot f_vis], GEachDef CFunction (KHole HFuncPad) false [kw "GDO_FUNC_ALIAS"; ko "("; KWord [SH HFunc]; ko ")"]);
   ([f_sep], GEachDef CObject (KHole HObjPad) false [ko "*"; w_lit "GDO_RAWPTR_" HObj])].
Definition x_params : list tok := [pn "("; wd "x"; pn ")"].
Definition g_alias : list gel :=
  [([f_wrap], GDef $"GDO_FUNC_ALIAS" true (x_params ++ [wd "GDO_WRAP_"; pn "##"; wd "x"]));
   ([FNot f_wrap], GDef $"GDO_FUNC_ALIAS" true (x_params ++ [wd "GDO_RAWPTR_"; pn "##"; wd "x"]))].
Definition k_wrapper : list stok :=
  [kw "GDO_WRAP_DECL"; KHole HType; kw "GDO_WRAP"; KGlue; ko "("; KWord [SH HFunc]; ko ")"; ko "("; KHole HArgs; ko ")"; ko "{";
   kw "_GDO_WRAP_CHECK_LOADED"; KGlue; ko "("; KWord [SH HFunc]; ko ")"; ko ";"; w_lit "GDO_HOOK_" HFunc; KGlue; ko "("; KHole HNames; ko ")"; ko ";";
   KHole HReturn; w_lit "GDO_RAWPTR_" HFunc; KGlue; ko "("; KHole HNames; ko ")"; ko ";"; ko "}"].
Definition g_wrapper : list gel := [([f_wrap], GEach CFunction k_wrapper)].
Definition g_handle : list gel :=
  at_ [] [kw "enum"; ko "{"] ++ [([], GEach CSymbol [w_lit "GDO_LOAD_" HSym; ko ","])] ++ at_ [] [kw "GDO_ENUM_LAST"; ko "}"; ko ";"] ++
  at_ [] [kw "typedef"; kw "struct"; kw "_gdo_handle"; ko "{"; kw "gdo_hmod_t"; kw "handle"; ko ";"; kw "bool"; kw "free_lib_reg"; ko ";"] ++
  [([], GEach CFunction [KHole HType; ko "("; ko "*"; w_lit "GDO_PTR_" HFunc; ko ")"; ko "("; KHole HArgs; ko ")"; ko ";"])] ++
  [([], GEach CObject [KHole HObjType; ko "*"; w_lit "GDO_PTR_" HObj; ko ";"])] ++
  at_ [] [kw "gdo_char_t"; kw "libpath"; ko "["; kw "GDO_BUFLEN"; ko "]"; ko ";"; kw "gdo_char_t"; kw "errbuf"; ko "["; kw "GDO_BUFLEN"; ko "]"; ko ";"; ko "}";
          kw "gdo_handle_t"; ko ";"; kw "GDO_OBJ_DECL"; kw "gdo_handle_t"; kw "gdo_hndl"; ko ";"].
Definition g_pointers : list gel :=
  [([], GEachDef CFunction (w_lit "GDO_RAWPTR_" HFunc) false [kw "gdo_hndl"; ko "."; w_lit "GDO_PTR_" HFunc]);
   ([], GEachDef CObject (w_lit "GDO_RAWPTR_" HObj) false [kw "gdo_hndl"; ko "."; w_lit "GDO_PTR_" HObj])].
Definition g_hook : list gel := [([f_wrap], GEachDef CFunction (w_lit "GDO_HOOK_" HFunc) true [ko "("; ko "."; ko "."; ko "."; ko ")"; kw "_gdo_noop"; ko "("; ko ")"])].
Definition g_check : list gel :=
  [([f_wrap], GDef $"_GDO_WRAP_CHECK_LOADED" true ([pn "("; wd "SYMBOL"; pn ")"] ++ [wd "_gdo_wrap_check_loaded"; pn "("; pn "("; wd "void"; pn "*"; pn ")"; wd "GDO_RAWPTR_"; pn "##"; wd "SYMBOL";
     pn ","; wd "GDO_LOAD_"; pn "##"; wd "SYMBOL"; pn ","; wd "_T"; pn "("; pn "#"; wd "SYMBOL"; pn ")"; pn ")"]))].
Definition g_text : list gel := [([], GUndef $"_T"); ([], GDef $"_T" true (x_params ++ [wd "x"]))].
Definition g_decl : list gel := [([f_vis], GDef $"GDO_WRAP_DECL" false [wd "GDO_WRAP_VISIBILITY"]); ([FNot f_vis], GDef $"GDO_WRAP_DECL" false [wd "static"; wd "inline"])].
Definition g_name : list gel := [([f_vis], GDef $"GDO_WRAP" true (x_params ++ [wd "x"])); ([FNot f_vis], GDef $"GDO_WRAP" true (x_params ++ [wd "GDO_WRAP_"; pn "##"; wd "x"]))].
Definition f_libs : list str := [$"GDO_DEFAULT_LIBA"; $"GDO_HARDCODED_DEFAULT_LIBA"].
(** names that the header leaves as they are *)
Definition own_words : list str := map (fun s => $s) ["gdo_hndl"; "static"; "inline"; "return"; "void"; "_gdo_wrap_check_loaded"; "_gdo_noop"; "GDO_WRAP_VISIBILITY";
  "__linux__"; "GDO_ENABLE_AUTOLOAD_LAZY"; "GDO_WRAP_FUNCTIONS"; "GDO_SEPARATE"; "GDO_DISABLE_ALIASING"; "GDO_WRAP_IS_VISIBLE"]%string ++ absent.
Definition wraps (p : param_mode) {A} (l : list A) : list A := match p with PSkip => [] | _ => l end.
Definition header_lines (p : param_mode) : list str := flat_map (fun t => shown_lines p true (inner_lines (shipped t))) [TCommonH; TCH].
Definition free_names : list str := [$"GDO_HOOK_"; $"GDO_HAS_VA_ARGS_"].
Fixpoint first_each (n : nat) (l : list gel) : nat := match l with [] => n | (_, GEach _ _) :: _ => n | _ :: l => first_each (S n) l end.

Definition front_facts (p : param_mode) (a : list gel) : Prop :=
  let n := first_each 0 a - 2 in
  firstn (length g_handle) (skipn n a) = g_handle /\
  filter (may false $"GDO_RAWPTR_") a = g_pointers /\ filter (may false $"GDO_HOOK_") a = wraps p g_hook /\
  filter (may true $"_GDO_WRAP_CHECK_LOADED") a = wraps p g_check /\ filter (may true $"_T") a = g_text /\
  filter (may true $"GDO_WRAP_DECL") a = g_decl /\ filter (may true $"GDO_WRAP") a = g_name /\
  filter (may false $"GDO_LOAD_") a = [] /\ filter (may false $"GDO_PTR_") a = [] /\ filter (may true $"GDO_FUNC_ALIAS") a = [] /\ filter (may false $"GDO_WRAP_") a = g_decl /\
  flat_map (fun x => filter (may true x) a) own_words = [].
Definition known_name (g : gel) : bool :=
  match snd g with GDef y _ _ | GUndef y => starts_with $"GDO_" y || mem y other_macros | GEachDef _ t _ _ => starts_with $"GDO_" (def_front t) | _ => true end.
Definition set_facts (a : list gel) : Prop :=
  forallb known_name a = true /\
  filter (may true $"GDO_HAVE_DLADDR") a = [([], GDef $"GDO_HAVE_DLADDR" false [])] /\
  filter (may true $"GDO_HAVE_DLINFO") a =
    [([FAnd (FNot (FDef $"GDO_HAVE_DLINFO")) (FOr (FDef $"__GLIBC__") (FOr (FDef $"__FreeBSD__") (FOr (FDef $"__NetBSD__") (FOr (FDef $"__DragonFly__") (FOr (FDef $"__minix") (FDef $"__sun"))))))],
      GDef $"GDO_HAVE_DLINFO" false [])] /\
  filter (may true $"GDO_HAVE_DLMOPEN") a =
    [([FAnd (FNot (FDef $"GDO_HAVE_DLMOPEN")) (FOr (FDef $"__GLIBC__") (FDef $"__sun"))], GDef $"GDO_HAVE_DLMOPEN" false [])] /\
  filter (may true $"GDO_ENABLE_AUTOLOAD") a =
    [([FAnd (FDef $"GDO_ENABLE_AUTOLOAD_LAZY") (FNot (FDef $"GDO_ENABLE_AUTOLOAD"))], GDef $"GDO_ENABLE_AUTOLOAD" false [])] /\
  exists f, filter (may true $"GDO_DEFAULT_LIB") a = [([FNot (FDef $"GDO_DEFAULT_LIB"); FAnd (FOr (FAnd (FAnd (FNot (FDef $"GDO_DEFAULT_LIBA")) (FDef $"GDO_HARDCODED_DEFAULT_LIBA")) FTrue) (FDef $"GDO_DEFAULT_LIBA")) f],
      GDef $"GDO_DEFAULT_LIB" false [wd "GDO_DEFAULT_LIBA"])] /\
    f = FNot (FOr (FAnd (FAnd (FOr (FAnd (FDef $"_WIN32") (FAnd (FNot (FDef $"GDO_USE_DLOPEN")) FTrue)) (FDef $"GDO_WINAPI")) (FDef $"_UNICODE")) FTrue) (FDef $"_GDO_TARGET_WIDECHAR")).
Definition header_fact (p : param_mode) : Prop :=
  match hread free_names (header_lines p) with
  | Some o =>
      let o := flat_map (pruned absent) o in
      let tail := wraps p g_wrapper ++ g_alias ++ g_aliases in
      let n := length o - length tail in
      skipn n o = tail /\ front_facts p (firstn n o) /\ set_facts (firstn n o)
  | None => False
  end /\ texts_fine (header_lines p) = true.
Lemma header_skip : header_fact PSkip.
Proof. vm_compute. repeat split. eexists; split; reflexivity. Qed.
Lemma header_read : header_fact PRead.
Proof. vm_compute. repeat split. eexists; split; reflexivity. Qed.
