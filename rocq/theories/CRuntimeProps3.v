(** The C API: what is asked of the loader *)
From Coq Require Import Ascii String List Bool Arith ZArith Lia.
From Verif Require Import Str StrFacts SpecFormat CRuntime SpecCRuntime CRuntimeFacts CRuntimeFacts2 CRuntimeProps CRuntimeProps2.
Import ListNotations.

Section K.
Variables (k : rconf) (w : world).
Hypothesis K : conf_ok k.

Lemma inert_not_open e : inert e -> not_open e.
Proof. now destruct e. Qed.
Lemma args_open f fl ns s : s_handle s = None ->
  let '(b, s') := load_lib_args k w f fl ns s in
  match f with
  | None | Some [] => b = false /\ s_handle s' = None /\ exists pre, s_trace s' = pre ++ s_trace s /\ Forall not_open pre
  | Some f => exists r pre post, s_trace s' = post ++ EvOpen f fl (k_dlmopen k && ns) r :: pre ++ s_trace s /\
      Forall not_open pre /\ Forall not_open post /\ s_handle s' = r /\ b = non_null r
  end.
Proof.
  intros H. unfold load_lib_args. assert (H1 : s_handle (clear_error w s) = None) by exact H. unfold lib_is_loaded. rewrite H1.
  destruct f as [[|c f]|].
  - split; [easy|]. split; [exact H|]. eexists [_]. split; [reflexivity|]. now constructor.
  - set (r := w_open w (s_trace (clear_error w s)) (c :: f) fl (k_dlmopen k && ns)). unfold load_library. fold r. cbn [with_handle s_handle].
    destruct r as [h|] eqn:R.
    + eexists (Some h), [_], []. split; [reflexivity|]. split; [now constructor|]. split; [now constructor|]. now split.
    + unfold save_error, call_error, save_to_errbuf. cbn [fst snd]. destruct (w_error _ _); eexists None, [_], [_]; (split; [reflexivity|]); (split; [now constructor|]); (split; [now constructor|]); now split.
  - split; [easy|]. split; [exact H|]. eexists [_]. split; [reflexivity|]. now constructor.
Qed.
Lemma opens_requested s o f fl ns : reachable k w s -> s_handle s = None -> requested k o = Some (f, fl, ns) ->
  exists b s', call k w o s = Ok (VBool b, s') /\
  match f with
  | None | Some [] => b = false /\ s_handle s' = None /\ exists new, s_trace s' = new ++ s_trace s /\ Forall not_open new
  | Some f => exists r pre post, s_trace s' = post ++ EvOpen f fl (k_dlmopen k && ns) r :: pre ++ s_trace s /\
      Forall not_open pre /\ Forall not_open post /\ s_handle s' = r /\ (r = None -> b = false)
  end.
Proof.
  intros R H Q. assert (I := reachable_inv k w K s R).
  assert (P : forall f fl ns, exists b s', Ok (VBool (fst (load_lib_args k w f fl ns s)), snd (load_lib_args k w f fl ns s)) = Ok (VBool b, s') /\
    match f with
    | None | Some [] => b = false /\ s_handle s' = None /\ exists new, s_trace s' = new ++ s_trace s /\ Forall not_open new
    | Some f => exists r pre post, s_trace s' = post ++ EvOpen f fl (k_dlmopen k && ns) r :: pre ++ s_trace s /\
        Forall not_open pre /\ Forall not_open post /\ s_handle s' = r /\ (r = None -> b = false)
    end).
  { intros f0 fl0 ns0. assert (A := args_open f0 fl0 ns0 s H). destruct (load_lib_args k w f0 fl0 ns0 s) as [b s']. exists b, s'. split; [easy|].
    destruct f0 as [[|c f0]|]; [easy| |easy]. destruct A as (r & pre & post & A1 & A2 & A3 & A4 & A5). exists r, pre, post. repeat split; auto. now intros ->. }
  assert (T : forall f fl ns, exists b s', then_symbols k w (load_lib_args k w f fl ns s) = Ok (VBool b, s') /\
    match f with
    | None | Some [] => b = false /\ s_handle s' = None /\ exists new, s_trace s' = new ++ s_trace s /\ Forall not_open new
    | Some f => exists r pre post, s_trace s' = post ++ EvOpen f fl (k_dlmopen k && ns) r :: pre ++ s_trace s /\
        Forall not_open pre /\ Forall not_open post /\ s_handle s' = r /\ (r = None -> b = false)
    end).
  { intros f0 fl0 ns0. assert (A := args_open f0 fl0 ns0 s H). assert (Y := load_args_inv k w K f0 fl0 ns0 s I). unfold then_symbols.
    destruct (load_lib_args k w f0 fl0 ns0 s) as [[] s1]; cbn [snd] in Y.
    - destruct f0 as [[|c f0]|]; [now destruct A| |now destruct A]. destruct A as (r & pre & post & A1 & A2 & A3 & A4 & A5).
      destruct (load_all_ok k w K s1 Y) as (b & s2 & Q2 & (_ & (L1 & _ & new & L2 & L3) & _) & _). rewrite Q2. exists b, s2. split; [easy|].
      exists r, pre, (new ++ post). rewrite L2, A1, <- app_assoc. repeat split; auto.
      + apply Forall_app. split; [|easy]. eapply Forall_impl; [|exact L3]. apply inert_not_open.
      + congruence.
      + intros ->. discriminate.
    - exists false, s1. split; [easy|]. destruct f0 as [[|c f0]|]; [easy| |easy]. destruct A as (r & pre & post & A1 & A2 & A3 & A4 & A5). exists r, pre, post. repeat split; auto. }
  destruct o; try discriminate; injection Q as <- <- <-; cbn [call]; unfold load_lib, load_lib_name;
    first [exact (P _ _ _) | exact (T _ _ _)].
Qed.
End K.
