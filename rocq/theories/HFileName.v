(** Proofs for C102: what the macros for file names stand for. *)
From Coq Require Import Ascii String List Bool Arith Lia.
From Verif Require Import Str StrFacts Parse ParamNames Prefix Substitute Data Options Generate SpecPrefix SpecSubstitute.
From Verif Require SpecGenerate SpecEndToEnd.
From Verif Require Import Templates SpecTemplates SpecCLang SpecCProg SpecCMacro SpecBody SpecHeader SpecFile SpecFileName
  CTemplate CTemplateText CTemplatePP HTemplate HTemplatePP HText HMacro HHeader HOrder CExpand HFile.
Import ListNotations.

Definition p2 (b : list tok) : option mdef := Some (mkdef (Some ([$"NAME"; $"API"], false)) b).
Definition narrow_body (d : str -> bool) : list tok :=
  if d $"_WIN32" then (if d $"__MINGW32__" then [TText $"lib"] else []) ++ [TOp $"#"; TWord $"NAME"; TText $"-"; TOp $"#"; TWord $"API"; TText $".dll"]
  else if d $"__APPLE__" then [TText $"lib"; TOp $"#"; TWord $"NAME"; TText $"."; TOp $"#"; TWord $"API"; TText $".dylib"]
  else if d $"_AIX" then if d $"__64BIT__" || d $"__LP64__" then [TText $"lib"; TOp $"#"; TWord $"NAME"; TText $".a(shr_64.o)"] else [TText $"lib"; TOp $"#"; TWord $"NAME"; TText $".a(shr.o)"]
  else if d $"__ANDROID__" then [TText $"lib"; TOp $"#"; TWord $"NAME"; TText $".so"]
  else [TText $"lib"; TOp $"#"; TWord $"NAME"; TText $".so."; TOp $"#"; TWord $"API"].
Definition called (x : string) : list tok := [TWord $x; TOp $"("; TWord $"NAME"; TOp $","; TWord $"API"; TOp $")"].
Definition fm_meanings (d : str -> bool) : list (str * option mdef) :=
  [($"GDO_LIBNAMEA", p2 (narrow_body d)); ($"GDO_LIBNAMEW", p2 (TWord $"L" :: TText [] :: called "GDO_LIBNAMEA")); ($"GDO_LIBNAME", p2 (called (if wide_names d then "GDO_LIBNAMEW" else "GDO_LIBNAMEA")));
   ($"GDO_LIBEXTA", Some (mkdef None [TText (library_extension d)])); ($"GDO_LIBEXTW", Some (mkdef None [TWord $"L"; TText []; TWord $"GDO_LIBEXTA"]));
   ($"GDO_LIBEXT", Some (mkdef None [TWord (if wide_names d then $"GDO_LIBEXTW" else $"GDO_LIBEXTA")]))].
Lemma fm_means o : hread [] fm_lines = Some o -> forall cfg c x v, In (x, v) (fm_meanings cfg) -> match last_def x (outs cfg c o) with Some d => meaning d | None => None end = v.
Proof.
  intro R. vm_compute in R. assert (Q : forall a b : list gel, Some a = Some b -> b = a) by (intros; congruence). apply Q in R. subst o. intros cfg c x v I. unfold fm_meanings in I. cbn [In] in I.
  repeat (destruct I as [I|I]; [injection I as <- <-; match goal with |- context [last_def ?x (outs cfg c ?l)] => let f := eval vm_compute in (filter (may true x) l) in rewrite (exact_def cfg c x l f ltac:(vm_compute; reflexivity)) end;
    unfold outs, iout, narrow_body, wide_names, library_extension; cbn [flat_map fst snd forallb feval];
    repeat match goal with |- context [cfg (Str.lit ?s)] => let v := eval vm_compute in (Str.lit s) in change (cfg (Str.lit s)) with (cfg v) end;
    repeat (match goal with |- context [cfg ?w] => destruct (cfg w) end; cbn [andb orb negb app]); vm_compute; reflexivity|]). destruct I.
Qed.
Lemma fm_macros c cfg : default_prefix c -> c_line c = false -> c_funcs c = [] -> c_objs c = [] ->
  exists fm, preprocess cfg (macros_text c (shipped TFilenameMacros)) = Some fm /\ forall x v, In (x, v) (fm_meanings cfg) -> match last_def x fm with Some d => meaning d | None => None end = v.
Proof.
  intros D L Ef Eo. destruct fm_reads as (o & R & _). exists (outs cfg c o). split; [|intros x v I; exact (fm_means o R cfg c x v I)].
  rewrite <- (app_nil_r (macros_text c _)). rewrite (fm_text c _ fm_lines L eq_refl (proj2 fm_fine)).
  rewrite (hread_text c cfg [] fm_lines o D); [change (preprocess (defined_after cfg (outs cfg c o)) []) with (Some (@nil pout)); cbn [behind]; clear; now rewrite app_nil_r| |exact (proj1 fm_fine)|..|exact R]; clear R.
  - unfold plain_config. rewrite Ef, Eo. split; constructor.
  - intros p v [].
  - unfold envs; cbn. rewrite Ef. constructor.
  - intros k v h I. exfalso. destruct k; cbn in I; rewrite ?Ef, ?Eo in I; exact I.
Qed.

Definition text_in (t : tok) : str := match t with TText s => s | _ => [] end.
Section Names.
Variables (m : macro_table) (d : str -> bool).
Hypothesis M : forall x v, In (x, v) (fm_meanings d) -> macro_at m x = v.
Hypothesis ML : macro_at m $"L" = None.
Lemma two_arguments (n a : htok) h2 h3 : (exists x, fst n = TWord x) -> (exists x, fst a = TWord x) -> arguments 0 [] [n; (TOp $",", h2); a; (TOp $")", h3)] = Some ([[n]; [a]], h3, []).
Proof. destruct n as [n hn], a as [a ha]. cbn [fst]. intros (x & ->) (y & ->). reflexivity. Qed.
Lemma texts_plain l : Forall (plain_tok m) l -> steps m l (map fst l).
Proof. intro H. rewrite <- (app_nil_r l) at 1. rewrite <- (app_nil_r (map fst l)). apply s_plains; [exact H|apply s_nil]. Qed.
Lemma narrow h h1 h2 h3 n hn a ha fn fa : mem $"GDO_LIBNAMEA" h = false -> goes m [(TWord n, hn)] fn -> goes m [(TWord a, ha)] fa ->
  exists r, steps m [(TWord $"GDO_LIBNAMEA", h); (TOp $"(", h1); (TWord n, hn); (TOp $",", h2); (TWord a, ha); (TOp $")", h3)] r /\ is_text false r (library_file d n a).
Proof.
  intros Hh Gn Ga.
  match goal with |- exists r, steps m ?l r /\ _ => assert (S : forall r, steps m (hide ($"GDO_LIBNAMEA" :: filter (fun z => mem z h3) h) (put_in [$"NAME"; $"API"] false [[(TWord n, hn)]; [(TWord a, ha)]] [fn; fa] [] (narrow_body d))) r -> steps m l r) end.
  { intros r H. eapply s_call_full; [exact Hh|apply M; left; reflexivity|apply two_arguments; eexists; reflexivity|constructor; [exact Gn|constructor; [exact Ga|constructor]]|]. now rewrite app_nil_r. }
  match goal with |- exists r, _ /\ _ => enough (E : exists r : list htok, hide ($"GDO_LIBNAMEA" :: filter (fun z => mem z h3) h) (put_in [$"NAME"; $"API"] false [[(TWord n, hn)]; [(TWord a, ha)]] [fn; fa] [] (narrow_body d)) = r /\ Forall (plain_tok m) r /\ is_text false (map fst r) (library_file d n a)) end.
  { destruct E as (r & E & P & T). exists (map fst r). split; [apply S; rewrite E; now apply texts_plain|exact T]. }
  clear S. unfold narrow_body, library_file. generalize ($"GDO_LIBNAMEA" :: filter (fun z => mem z h3) h). intro hs.
  destruct (d _); [destruct (d _)|destruct (d _); [|destruct (d _); [destruct (d _ || d _)|destruct (d _)]]];
    (eexists; split; [cbn; reflexivity|]; split; [repeat apply Forall_cons; try exact Logic.I; apply Forall_nil|]; match goal with |- is_text false ?l _ => exists (text_in (hd TBad l)), (map text_in (tl l)) end; split; [reflexivity|]; cbn [map fst snd hd tl text_in concat app]; rewrite <- ?app_assoc, ?app_nil_r; reflexivity).
Qed.
Lemma stays y h : macro_at m y = None -> goes m [(TWord y, h)] [(TWord y, h)].
Proof. intro H. exists 2. cbn [replace_all option_map]. destruct (mem y h); [reflexivity|]. now rewrite H. Qed.
Lemma wide_text l r s : plain_tok m l -> fst l = TWord $"L" -> forall h, (exists r', steps m r r' /\ is_text false r' s) -> exists r', steps m (l :: (TText [], h) :: r) r' /\ is_text true r' s.
Proof.
  intros P E h (r' & S & (a & ps & -> & <-)). exists (fst l :: TText [] :: map TText (a :: ps)). split; [apply s_plain; [exact P|]; apply (s_plain m (TText [], h)); [exact Logic.I|exact S]|].
  rewrite E. exists [], (a :: ps). split; reflexivity.
Qed.
Lemma wide h h1 h2 h3 n hn a ha y hy z hz : mem $"GDO_LIBNAMEW" h = false -> mem $"GDO_LIBNAMEA" h = false -> goes m [(TWord n, hn)] [(TWord y, hy)] -> goes m [(TWord a, ha)] [(TWord z, hz)] -> macro_at m y = None -> macro_at m z = None ->
  exists r, steps m [(TWord $"GDO_LIBNAMEW", h); (TOp $"(", h1); (TWord n, hn); (TOp $",", h2); (TWord a, ha); (TOp $")", h3)] r /\ is_text true r (library_file d y z).
Proof.
  intros Hw Hh Gn Ga Ny Nz.
  assert (Hf : mem $"GDO_LIBNAMEA" ($"GDO_LIBNAMEW" :: filter (fun z => mem z h3) h) = false).
  { apply not_true_is_false. intro I. unfold mem in I. apply existsb_exists in I as (x & I & E). apply str_eqb_eq in E. subst x. destruct I as [I|I]; [discriminate|]. apply filter_In in I as (I & _).
    assert (mem $"GDO_LIBNAMEA" h = true); [|congruence]. unfold mem. apply existsb_exists. exists $"GDO_LIBNAMEA". split; [exact I|now apply str_eqb_eq]. }
  revert Hf. set (hs := $"GDO_LIBNAMEW" :: filter (fun z => mem z h3) h). intro Hf.
  enough (E : exists r, steps m (hide hs (put_in [$"NAME"; $"API"] false [[(TWord n, hn)]; [(TWord a, ha)]] [[(TWord y, hy)]; [(TWord z, hz)]] [] (TWord $"L" :: TText [] :: called "GDO_LIBNAMEA"))) r /\ is_text true r (library_file d y z)).
  { destruct E as (r & E & T). exists r. split; [|exact T]. eapply s_call_full; [exact Hw|apply M; right; left; reflexivity|apply two_arguments; eexists; reflexivity|constructor; [exact Gn|constructor; [exact Ga|constructor]]|]. fold hs. now rewrite app_nil_r. }
  match goal with |- exists r, steps m ?l r /\ _ => replace l with ((TWord $"L", hs ++ []) :: (TText [], hs ++ []) :: [(TWord $"GDO_LIBNAMEA", hs ++ []); (TOp $"(", hs ++ []); (TWord y, hs ++ hy); (TOp $",", hs ++ []); (TWord z, hs ++ hz); (TOp $")", hs ++ [])]) by reflexivity end.
  apply wide_text; [right; exact ML|reflexivity|]. eapply narrow; [rewrite app_nil_r; exact Hf|now apply stays|now apply stays].
Qed.
Lemma default n a y hy z hz : goes m [(TWord n, [])] [(TWord y, hy)] -> goes m [(TWord a, [])] [(TWord z, hz)] -> macro_at m y = None -> macro_at m z = None ->
  exists r, steps m [(TWord $"GDO_LIBNAME", []); (TOp $"(", []); (TWord n, []); (TOp $",", []); (TWord a, []); (TOp $")", [])] r /\ is_text (wide_names d) r (library_file d y z).
Proof.
  intros Gn Ga Ny Nz. set (hs := [$"GDO_LIBNAME"]).
  enough (E : exists r, steps m (hide hs (put_in [$"NAME"; $"API"] false [[(TWord n, [])]; [(TWord a, [])]] [[(TWord y, hy)]; [(TWord z, hz)]] [] (called (if wide_names d then "GDO_LIBNAMEW" else "GDO_LIBNAMEA")))) r /\ is_text (wide_names d) r (library_file d y z)).
  { destruct E as (r & E & T). exists r. split; [|exact T]. eapply s_call_full; [reflexivity|apply M; right; right; left; reflexivity|apply two_arguments; eexists; reflexivity|constructor; [exact Gn|constructor; [exact Ga|constructor]]|]. now rewrite app_nil_r. }
  destruct (wide_names d).
  - apply (wide hs hs hs hs y (hs ++ hy) z (hs ++ hz) y (hs ++ hy) z (hs ++ hz)); try reflexivity; try assumption; now apply stays.
  - eapply (narrow hs hs hs hs y (hs ++ hy) z (hs ++ hz)); try reflexivity; now apply stays.
Qed.
Lemma extensions : (forall h, mem $"GDO_LIBEXTA" h = false -> exists r, steps m [(TWord $"GDO_LIBEXTA", h)] r /\ is_text false r (library_extension d)) /\
  (forall h, mem $"GDO_LIBEXTW" h = false -> mem $"GDO_LIBEXTA" h = false -> exists r, steps m [(TWord $"GDO_LIBEXTW", h)] r /\ is_text true r (library_extension d)) /\
  exists r, steps m [(TWord $"GDO_LIBEXT", [])] r /\ is_text (wide_names d) r (library_extension d).
Proof.
  assert (A : forall h, mem $"GDO_LIBEXTA" h = false -> exists r, steps m [(TWord $"GDO_LIBEXTA", h)] r /\ is_text false r (library_extension d)).
  { intros h H. exists [TText (library_extension d)]. split; [|exists (library_extension d), []; split; [reflexivity|apply app_nil_r]]. eapply s_object; [exact H|apply M; do 3 right; left; reflexivity|].
    apply (s_plain m (TText _, _)); [exact Logic.I|apply s_nil]. }
  assert (W : forall h, mem $"GDO_LIBEXTW" h = false -> mem $"GDO_LIBEXTA" h = false -> exists r, steps m [(TWord $"GDO_LIBEXTW", h)] r /\ is_text true r (library_extension d)).
  { intros h H H'. set (hs := $"GDO_LIBEXTW" :: h). assert (Ha : mem $"GDO_LIBEXTA" (hs ++ []) = false) by (rewrite app_nil_r; exact H').
    destruct (wide_text (TWord $"L", hs ++ []) [(TWord $"GDO_LIBEXTA", hs ++ [])] (library_extension d) (or_intror ML) eq_refl (hs ++ []) (A _ Ha)) as (r & S & T). exists r. split; [|exact T].
    eapply s_object; [exact H|apply M; do 4 right; left; reflexivity|]. exact S. }
  split; [exact A|]. split; [exact W|].
  assert (O : forall x, macro_at m $"GDO_LIBEXT" = Some (mkdef None [TWord x]) -> forall r, steps m [(TWord x, [$"GDO_LIBEXT"])] r -> steps m [(TWord $"GDO_LIBEXT", [])] r).
  { intros x D r S. eapply s_object; [reflexivity|exact D|]. exact S. }
  assert (D : macro_at m $"GDO_LIBEXT" = Some (mkdef None [TWord (if wide_names d then $"GDO_LIBEXTW" else $"GDO_LIBEXTA")])) by (apply M; do 5 right; left; reflexivity).
  destruct (wide_names d); [destruct (W [$"GDO_LIBEXT"] eq_refl eq_refl) as (r & S & T)|destruct (A [$"GDO_LIBEXT"] eq_refl) as (r & S & T)]; exists r; (split; [exact (O _ D r S)|exact T]).
Qed.
End Names.

(** a table with the file's macros *)
Lemma still_meant pre fm post d x v : (forall x v, In (x, v) (fm_meanings d) -> match last_def x fm with Some o => meaning o | None => None end = v) -> Forall keeps_names post -> In (x, v) (fm_meanings d) ->
  macro_at (macros_of (pre ++ fm ++ post)) x = v.
Proof.
  intros H K I. rewrite macro_at_def, !last_def_app. assert (last_def x post = None) as ->.
  { apply last_def_none. intros o J. rewrite Forall_forall in K. specialize (K o J). assert (L : In x library_names). { unfold fm_meanings in I. cbn [In] in I. unfold library_names. cbn [map In]. decompose [or] I; try contradiction; match goal with E : (_, _) = (_, _) |- _ => injection E as <- _; tauto end. }
    unfold names_it. destruct o; cbn [named] in *; [reflexivity| |]; apply str_eqb_neq; intros ->; contradiction. }
  specialize (H x v I). destruct (last_def x fm) eqn:E; [exact H|]. exfalso. unfold fm_meanings in I. cbn [In] in I. decompose [or] I; try contradiction; match goal with F : (_, _) = (_, _) |- _ => injection F as _ F; rewrite <- F in H; discriminate end.
Qed.
Lemma becomes_goes m x y : becomes m [TWord x] [TWord y] -> exists h, goes m [(TWord x, [])] [(TWord y, h)].
Proof. intros (n & l & E & F). destruct l as [|[t h] [|]]; try discriminate. cbn [map fst] in F. injection F as ->. exists h, n. exact E. Qed.
Lemma becomes_some m x r : becomes m [TWord x] r -> exists l, goes m [(TWord x, [])] l.
Proof. intros (n & l & E & F). exists l, n. exact E. Qed.

Theorem names_right c cfg : default_prefix c -> c_line c = false -> c_funcs c = [] -> c_objs c = [] -> exists fm, preprocess cfg (macros_text c (shipped TFilenameMacros)) = Some fm /\
  forall pre post, let m := macros_of (pre ++ fm ++ post) in Forall keeps_names post -> macro_at m $"L" = None ->
    (forall n a, (exists r, becomes m [TWord n] r) -> (exists r, becomes m [TWord a] r) -> makes_text m false (call "GDO_LIBNAMEA" n a) (library_file cfg n a)) /\
    (forall n a y z, ends_as m n y -> ends_as m a z -> makes_text m true (call "GDO_LIBNAMEW" n a) (library_file cfg y z) /\ makes_text m (wide_names cfg) (call "GDO_LIBNAME" n a) (library_file cfg y z)) /\
    makes_text m false [TWord $"GDO_LIBEXTA"] (library_extension cfg) /\ makes_text m true [TWord $"GDO_LIBEXTW"] (library_extension cfg) /\ makes_text m (wide_names cfg) [TWord $"GDO_LIBEXT"] (library_extension cfg).
Proof.
  intros D L Ef Eo. destruct (fm_macros c cfg D L Ef Eo) as (fm & P & H). exists fm. split; [exact P|]. intros pre post m K ML.
  assert (M : forall x v, In (x, v) (fm_meanings cfg) -> macro_at m x = v) by (intros x v; now apply still_meant). clearbody m. clear P H fm.
  split; [|split; [|destruct (extensions m cfg M ML) as (A & W & N); split; [exact (A [] eq_refl)|split; [exact (W [] eq_refl eq_refl)|exact N]]]].
  - intros n a (r & B) (r' & B'). apply becomes_some in B as (l & B). apply becomes_some in B' as (l' & B'). eapply (narrow m cfg M); [reflexivity|exact B|exact B'].
  - intros n a y z (B & N) (B' & N'). apply becomes_goes in B as (h & B). apply becomes_goes in B' as (h' & B'). split; [eapply (wide m cfg M ML); try reflexivity; eassumption|eapply (default m cfg M ML); eassumption].
Qed.

(* ---------------------------------------------------------------- one result *)

Lemma becomes_once m l r r' : becomes m l r -> becomes m l r' -> r = r'.
Proof.
  intros (n & x & E & <-) (n' & x' & E' & <-). assert (x = x'); [|now subst].
  assert (Some x = Some x') by (rewrite <- (CExpand.replace_mono m n (n + n') _ _ (Nat.le_add_r _ _) E), <- (CExpand.replace_mono m n' (n + n') _ _ ltac:(lia) E'); reflexivity). congruence.
Qed.
Lemma texts_once m w w' l s s' : makes_text m w l s -> makes_text m w' l s' -> s = s'.
Proof.
  intros (r & B & (a & ps & E & <-)) (r' & B' & (a' & ps' & E' & <-)). rewrite (becomes_once _ _ _ _ B' B), E in E'.
  assert (Q : map TText (a :: ps) = map TText (a' :: ps')) by (destruct w, w'; cbn [app map] in *; congruence).
  assert (I : forall p q, map TText p = map TText q -> p = q) by (induction p as [|x p IH]; intros [|y q] H; try discriminate; [reflexivity|]; cbn [map] in H; injection H as -> H; now rewrite (IH q H)).
  now rewrite (I _ _ Q).
Qed.
Lemma file_longer d n n' a : length n < length n' -> library_file d n a <> library_file d n' a.
Proof.
  intros L E. apply (f_equal (@List.length ascii)) in E. unfold library_file in E.
  repeat match type of E with context [if d ?x then _ else _] => destruct (d x) end; rewrite !app_length in E; lia.
Qed.
Theorem names_wrong c cfg : default_prefix c -> c_line c = false -> c_funcs c = [] -> c_objs c = [] -> exists fm, preprocess cfg (macros_text c (shipped TFilenameMacros)) = Some fm /\
  forall pre post n a, let m := macros_of (pre ++ fm ++ post) in Forall keeps_names post -> macro_at m $"L" = None -> ends_as m n ($"GDO_WRAP_" ++ n) -> ends_as m a a ->
    makes_text m (wide_names cfg) (call "GDO_LIBNAME" n a) (library_file cfg ($"GDO_WRAP_" ++ n) a) /\ ~ makes_text m (wide_names cfg) (call "GDO_LIBNAME" n a) (library_file cfg n a).
Proof.
  intros D L Ef Eo. destruct (names_right c cfg D L Ef Eo) as (fm & P & H). exists fm. split; [exact P|]. intros pre post n a m K ML En Ea. destruct (H pre post K ML) as (_ & H2 & _). destruct (H2 _ _ _ _ En Ea) as (_ & H3). fold m in H3.
  split; [exact H3|]. intro T. pose proof (texts_once _ _ _ _ _ _ T H3) as E. revert E. apply file_longer. rewrite app_length. change (length $"GDO_WRAP_") with 9. lia.
Qed.
