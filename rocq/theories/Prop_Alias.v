(** Properties of the operation slices shared by a log and its caller. *)
From Verif Require Import Base F64 Tson Heap Patch Logument Alias AliasSpec AliasLemmas.

(** C40: a slice stored and committed is the caller's slice: a later write of the caller
    changes the version. *)
Theorem C40_writes_through : forall M L extra s i o v st1, al_pool L = None -> valid M s -> (i < s_len s)%nat ->
  last (al_version L) = Some v -> aappend (astore extra (Some s) (M, L)) = (st1, Ok tt) ->
  let st2 := astep st1 (AWrite s i o) in
  al_patches (snd st2) !! (v + 1)%N = Some s ∧ contents (fst st2) s = <[i := o]> (contents M s).
Proof. exact writes_through. Qed.
Print Assumptions C40_writes_through.
(** A second Store writes into the spare capacity of the slice stored first. *)
Theorem C40_store_overwrites_caller : forall M L e1 e2 s t, al_pool L = None -> valid M s -> valid M t ->
  (s_len s + s_len t <= s_cap s)%nat ->
  let M2 := fst (astore e2 (Some t) (astore e1 (Some s) (M, L))) in
  contents M2 (Sl (s_arr s) (s_off s + s_len s) (s_len t) (s_cap s - s_len s)) = contents M t.
Proof. exact store_overwrites. Qed.
Print Assumptions C40_store_overwrites_caller.
Example C40_case : let M := [[o1; zero_op; zero_op]; [o2]] in
  al_pool alog0 = None ∧ valid M sa ∧ valid M sb ∧ (s_len sa + s_len sb <= s_cap sa)%nat ∧ (0 < s_len sa)%nat ∧
  last (al_version alog0) = Some 0%N ∧ (exists st1, aappend (astore 0 (Some sa) (M, alog0)) = (st1, Ok tt)) ∧
  arr_at (fst (astore 0 (Some sb) (astore 0 (Some sa) (M, alog0)))) 0 = [o1; o2; zero_op].
Proof. exact sharing_case. Qed.
(** Even when the caller writes nothing: storing one slice twice changes a committed
    version. *)
Theorem C40_committed_refuted : exists l a, Forall (fun x => match x with AWrite _ _ _ => False | _ => True end) (a :: l) ∧
  all_along legal ([], alog0) (l ++ [a]) ∧
  let st := arun ([], alog0) l in
  contents (fst st) <$> al_patches (snd st) !! 1%N = Some [o1; o2] ∧
  contents (fst (astep st a)) <$> al_patches (snd (astep st a)) !! 1%N = Some [o1; o3].
Proof. exact twice_refuted. Qed.
Print Assumptions C40_committed_refuted.
(** A caller that keeps off the log's arrays sees a log without sharing: after any history it
    is the log of [Logument.v] given the elements of each slice at the time of the call. *)
Theorem C40_isolated : forall M l cur sn h, all_along legal (M, alog0) l -> all_along careful (M, alog0) l ->
  (h, view (fst (arun (M, alog0) l)) (snd (arun (M, alog0) l)) cur sn) = vrun (M, alog0) l (h, Lgm [0%N] cur sn ∅ None).
Proof. exact isolated. Qed.
Print Assumptions C40_isolated.
Example C40_isolated_case : all_along legal ([], alog0) calls_ok ∧ all_along careful ([], alog0) calls_ok.
Proof. exact isolated_case. Qed.
