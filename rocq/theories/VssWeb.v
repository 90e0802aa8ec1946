(** Facts about the web demo. *)
From stdpp Require Import pretty.
From Verif Require Import TjsonLemmas Base BaseLemmas BaseSpec BaseSpecLemmas Tson TsonInd TsonSpec F64 Json JsonSpec Serial TextSpec Heap HeapSpec Patch PatchSpec Own TreePatch PatchLemmas Diff DiffSpec DiffApply Bytes
  Vss VssSpec VssLemmas VssPatchSpec VssFileSpec VssPatchFileSpec ReadLemmas VssRead VssRenew DiffLemmas Logument VssRun VssRunSpec VssRunLemmas.
From Coq Require Import Lia.

Section web.
Context (T : textlib).
Lemma store_files_ok car fs (P : Z -> list operation) h : forall is L,
  (forall j, j ∈ is -> Json.unmarshal T (read_file (patch_name car j) fs) = Ok (Some (P j))) ->
  store_files T car is fs (h, L) =
    ((h, with_pool L match is with [] => l_pool L | _ => Some (default [] (l_pool L) ++ concat (map P is)) end), Ok tt).
Proof.
  induction is as [|j is IH]; intros L H; [by destruct L|].
  cbn [store_files]. unfold read_patch. rewrite (H j) by left. cbn [store store_arg].
  rewrite IH by (intros j' Hj'; apply H; by right). f_equal. f_equal. unfold with_pool. cbn [l_version l_current l_snapshots l_patches l_pool].
  f_equal. cbn [map concat]. destruct (l_pool L) as [l|]; cbn [append_slice default from_option id].
  - destruct is; [cbn; by rewrite app_nil_r|]. by rewrite app_assoc.
  - destruct is; [cbn; by rewrite app_nil_r|]. done.
Qed.
Lemma first_snapshot h v ops : v ≠ VNil ->
  snapshot 1 (fst (append (h, Lgm [0%N] v {[0%N := v]} ∅ (Some ops)))) =
  match apply_patch h v ops with
  | (h', Ok t) => ((h', Lgm [0%N; 1%N] v (<[1%N := t]> {[0%N := v]}) {[1%N := ops]} None), Ok t)
  | (h', _) => ((h', Lgm [0%N; 1%N] v {[0%N := v]} {[1%N := ops]} None), Panic)
  end.
Proof.
  intros Hv. assert (E : append (h, Lgm [0%N] v {[0%N := v]} ∅ (Some ops)) = ((h, Lgm [0%N; 1%N] v {[0%N := v]} {[1%N := ops]} None), Ok tt)) by done.
  rewrite E. cbn [fst]. unfold snapshot.
  assert (F : find_latest (Lgm [0%N; 1%N] v {[0%N := v]} {[1%N := ops]} None) 1 = (Lgm [0%N; 1%N] v {[0%N := v]} {[1%N := ops]} None, Ok (0%N, v))) by done.
  rewrite F. change ((0 =? 1)%N) with false. cbv iota.
  change (map (patch_at (Lgm [0%N; 1%N] v {[0%N := v]} {[1%N := ops]} None)) (seqN (0 + 1) (N.to_nat (1 - 0)))) with [ops].
  cbn [replay_versions]. destruct (apply_patch h v ops) as [h' [t| |]]; done.
Qed.

Lemma handler_early car n fs h : n < 2 -> exists h', patch_handler T car n fs h = (h', Panic).
Proof.
  intros Hn. unfold patch_handler, new_logument. destruct (Serial.unmarshal T _) as [t| |]; [|by eexists..].
  destruct (alloc_tree h t) as [h1 v]. replace (seqZ 2 (n - 1)) with (@nil Z) by (symmetry; apply seqZ_nil; lia).
  cbn [store_files]. assert (E : append (h1, Lgm [0%N] v {[0%N := v]} ∅ None) = ((h1, Lgm [0%N] v {[0%N := v]} ∅ None), Ok tt)) by done.
  rewrite E. by eexists.
Qed.
Lemma handler_runs car n fs h m P : Serial.unmarshal T (read_file (tson_name car 1) fs) = Ok (TObj m) -> 2 <= n ->
  (forall j, 2 <= j <= n -> Json.unmarshal T (read_file (patch_name car j) fs) = Ok (Some (P j))) ->
  exists h' r, patch_handler T car n fs h = (h', r) ∧
    match papply (TObj m) (concat (map P (seqZ 2 (n - 1)))) with
    | (t, Ok _) => r = Ok (marshal_indent T (if decide (concat (map P (seqZ 2 (n - 1))) = []) then TNil else t) "" "  ")
    | _ => r = Panic
    end.
Proof.
  intros Ht Hn HP. unfold patch_handler, new_logument. rewrite Ht.
  destruct (alloc_tree h (TObj m)) as [h1 v] eqn:Ea. pose proof (alloc_tree_doc _ _ _ _ Ea) as HD.
  assert (Hv : exists l, v = VObj l).
  { rewrite alloc_tree_obj in Ea. repeat case_match; simplify_eq; by eexists. }
  destruct Hv as (l & ->).
  rewrite (store_files_ok car fs P); [|intros j Hj%elem_of_seqZ; apply HP; lia].
  assert (Hne : exists x xs, seqZ 2 (n - 1) = x :: xs) by (rewrite seqZ_cons by lia; by eexists _, _).
  destruct Hne as (x & xs & Hne). remember (concat (map P (seqZ 2 (n - 1)))) as ops eqn:Eo. rewrite Hne. cbn [l_pool default app].
  unfold with_pool. cbn [l_version l_current l_snapshots l_patches l_pool].
  pose proof (first_snapshot h1 (VObj l) ops ltac:(done)) as F.
  assert (E : append (h1, Lgm [0%N] (VObj l) {[0%N := VObj l]} ∅ (Some ops)) = ((h1, Lgm [0%N; 1%N] (VObj l) {[0%N := VObj l]} {[1%N := ops]} None), Ok tt)) by done.
  rewrite E in F |- *. cbn [fst] in F. rewrite F.
  destruct (apply_patch h1 (VObj l) ops) as [h2 r] eqn:Ep. pose proof (apply_patch_doc _ _ _ _ _ _ HD Ep) as HX.
  destruct (papply (TObj m) ops) as [t1 r1]. destruct r as [v| |], r1 as [[]| |]; try done; [|by eexists _, _..].
  destruct HX as [HD' ->]. destruct (decide (ops = [])).
  - assert (R : read h2 VNil = Some TNil) by (unfold read; by rewrite Nat.add_comm). rewrite R. by eexists _, _.
  - rewrite (read_doc _ _ _ HD'). by eexists _, _.
Qed.
(** The document sent when all operations have a leading slash. *)
Lemma handler_sent car n fs h m P h' s : Serial.unmarshal T (read_file (tson_name car 1) fs) = Ok (TObj m) ->
  (forall j, 2 <= j <= n -> Json.unmarshal T (read_file (patch_name car j) fs) = Ok (Some (P j)) ∧ Forall (fun o => exists rest, op_path o = "/" +++ rest) (P j)) ->
  patch_handler T car n fs h = (h', Ok s) ->
  s = "null" ∧ (forall j, 2 <= j <= n -> P j = []) ∨
  exists m', s = marshal_indent T (TObj m') "" "  " ∧ forall q, apart [Key ""] q -> at_path (TObj m') q = at_path (TObj m) q.
Proof.
  intros Ht HP E. destruct (Z.ltb_spec n 2) as [Hn|Hn].
  { destruct (handler_early car n fs h Hn) as (h2 & E2). by rewrite E in E2. }
  destruct (handler_runs car n fs h m P Ht Hn) as (h2 & r & E2 & HX); [intros j Hj; by apply HP|].
  rewrite E in E2. injection E2 as <- <-.
  assert (HC : forall o, o ∈ concat (map P (seqZ 2 (n - 1))) -> exists rest, op_path o = String slash rest).
  { intros o Ho. apply elem_of_list_In, in_concat in Ho as (l & Hl & Ho). apply in_map_iff in Hl as (j & <- & Hj%elem_of_list_In%elem_of_seqZ).
    apply elem_of_list_In in Ho.
    destruct (HP j) as [_ HF]; [lia|]. rewrite Forall_forall in HF. exact (HF o Ho). }
  destruct (papply_slash _ m HC) as (m' & Em & Hm). destruct (papply (TObj m) _) as [t r1]. cbn [fst] in Em. subst t.
  destruct r1 as [[]| |]; try done. injection HX as ->. destruct (decide (concat (map P (seqZ 2 (n - 1))) = [])) as [He|He].
  - left. split; [done|]. intros j Hj. assert (HN : forall o, o ∉ P j).
    { intros o Ho. assert (H : o ∈ concat (map P (seqZ 2 (n - 1)))).
      { apply elem_of_list_In, in_concat. exists (P j). split; [|by apply elem_of_list_In]. apply in_map, elem_of_list_In, elem_of_seqZ. lia. }
      rewrite He in H. by apply elem_of_nil in H. }
    destruct (P j) as [|o l]; [done|]. destruct (HN o). left.
  - right. exists m'. split; [done|]. intros q Hq. destruct q as [|[k|i] q]; [by apply apart_nil in Hq| |done].
    rewrite !at_key. rewrite Hm; [done|]. intros ->. destruct Hq as [Hq _]. apply Hq, prefix_cons, prefix_nil.
Qed.
(** Patches of data sets have leading slashes. *)
Lemma cell_path num d q v t : telemetry T num d -> cell d q v t -> q ≠ [] ∧ apart [Key ""] q.
Proof.
  intros TD (l & x & Hl & HC). assert (HN := leaf_at_names _ _ _ _ (tl_names T num d TD) Hl).
  assert (Hne : exists k l', l = k :: l').
  { destruct l as [|k l']; [|by eexists _, _]. exfalso. inversion Hl as [? H|]; subst. destruct TD as [HM HO _ _ _ _]. by destruct H. }
  destruct Hne as (k & l' & ->). apply Forall_cons_1 in HN as [[[Hk _] _] _].
  assert (Hq : exists q', q = Key k :: q').
  { destruct HC as [[-> _]|(i & xs & y & -> & _)]; by eexists. }
  destruct Hq as (q' & ->). split; [done|]. split; intros H.
  - apply prefix_cons_inv_1 in H. by injection H as <-.
  - apply prefix_cons_inv_1 in H. by injection H as ->.
Qed.
Lemma patch_slash num d d' s : telemetry T num d -> patch_file T d d' s ->
  exists ps, Json.unmarshal T s = Ok (Some ps) ∧ Forall (fun o => exists rest, op_path o = "/" +++ rest) ps ∧
    (ps = [] -> forall q v0 t0 v t, cell d q v0 t0 -> cell d' q v t -> TsonSpec.prim_eq (as_prim v0) (as_prim v) ∧ same_stamp t0 t).
Proof.
  intros TD (ops & ps & _ & Eu & HF & _ & HO). exists ps. split; [done|]. split.
  - apply Forall_forall. intros p Hp. apply elem_of_list_lookup in Hp as [i Hi].
    destruct (Forall2_lookup_r _ _ _ _ _ HF Hi) as (o & Ho & k & v & f & Eo & _).
    apply elem_of_list_lookup_2 in Ho. apply HO in Ho as (q & v0 & t0 & v1 & t & C & _ & _ & z & _ & Er).
    rewrite Eo in Er. injection Er as _ Ep _ _.
    destruct (written_slash q (proj1 (cell_path num d q v0 t0 TD C))) as (rest & Ew). exists rest. by rewrite Ep, Ew.
  - intros -> q v0 t0 v t C0 C. inversion HF; subst.
    destruct (read_stamp_total (f64_of_Z t0)) as (z0 & Z0). destruct (read_stamp_total (f64_of_Z t)) as (z & Z1).
    assert (HN : forall P : Prop, ~ TsonSpec.prim_eq (as_prim v0) (as_prim v) ∨ ~ same_stamp t0 t -> P).
    { intros P HD. assert (HI : JObj [("op", JStr "replace"); ("path", JStr (written q)); ("value", json_of_prim (as_prim v)); ("timestamp", JNum (f64_of_Z z))] ∈ @nil json).
      { apply HO. exists q, v0, t0, v, t. split; [done|]. split; [done|]. split; [done|]. by exists z. }
      by apply elem_of_nil in HI. }
    split.
    + apply prim_eq_iff. destruct (Diff.prim_eq _ _) eqn:E; [done|]. apply HN. left. rewrite <- prim_eq_iff. by rewrite E.
    + destruct (decide (z0 = z)) as [<-|Hz]; [by exists z0|]. apply HN. right. by rewrite (same_stamp_eq t0 t z0 z Z0 Z1).
Qed.
(** The document sent for the files of a run. *)
Lemma data_root d t : is_map d -> ~ stamped d -> shown d t -> exists m, t = TObj m.
Proof.
  intros HM HS HT. destruct HM as [m ->].
  destruct (proj2 (sn_branch _ _ HT [])) as (m1 & E); [by constructor|]. cbn in E. injection E as ->. by eexists.
Qed.
Lemma web_sent num car n fs h d D s0 S h' s : telemetry T num d ->
  alookup (tson_path car 1) fs = Some s0 -> data_file T d s0 ->
  (forall j, 2 <= j <= n -> alookup (patch_path car j) fs = Some (S j) ∧ patch_file T d (D j) (S j)) ->
  patch_handler T car n fs h = (h', Ok s) ->
  s = "null" ∧ (forall j q v0 t0 v t, 2 <= j <= n -> cell d q v0 t0 -> cell (D j) q v t -> TsonSpec.prim_eq (as_prim v0) (as_prim v) ∧ same_stamp t0 t) ∨
  exists t', s = marshal_indent T t' "" "  " ∧ forall q v t, cell d q v t -> at_path t' q = Some (TLeaf (as_prim v) t).
Proof.
  intros TD E0 (t0 & Et & HT) HP E. destruct (data_root d t0 (tl_map T num d TD) (tl_open T num d TD) HT) as (m & ->).
  pose (P j := match Json.unmarshal T (S j) with Ok (Some ps) => ps | _ => [] end).
  assert (HPj : forall j, 2 <= j <= n -> Json.unmarshal T (read_file (patch_name car j) fs) = Ok (Some (P j)) ∧
    Forall (fun o => exists rest, op_path o = "/" +++ rest) (P j) ∧
    (P j = [] -> forall q v0 t0 v t, cell d q v0 t0 -> cell (D j) q v t -> TsonSpec.prim_eq (as_prim v0) (as_prim v) ∧ same_stamp t0 t)).
  { intros j Hj. destruct (HP j Hj) as [Ej Hf]. destruct (patch_slash num d (D j) (S j) TD Hf) as (ps & Eu & HF & HN).
    unfold P. rewrite Eu. split; [|by split]. unfold read_file. rewrite patch_named, Ej. exact Eu. }
  destruct (handler_sent car n fs h m P h' s) as [[Es HN]|(m' & Es & Hm)].
  - unfold read_file. rewrite tson_named, E0. exact Et.
  - intros j Hj. destruct (HPj j Hj) as (H1 & H2 & _). by split.
  - exact E.
  - left. split; [done|]. intros j q v0 t1 v t Hj. destruct (HPj j Hj) as (_ & _ & H3). apply H3. by apply HN.
  - right. exists (TObj m'). split; [done|]. intros q v t C. rewrite Hm by exact (proj2 (cell_path num d q v t TD C)).
    apply (sn_cell _ _ HT). by exists v.
Qed.
Lemma update_first fs car s : alookup (tson_path car 1) fs = Some s -> update_handler (pretty car) "" fs = s.
Proof. intros H. unfold update_handler, read_file. rewrite decide_True by done. unfold tson_path in H. change ("_" +++ pretty 1 +++ ".tson") with "_1.tson" in H. by rewrite H. Qed.
Lemma update_later fs car j s : alookup (patch_path car j) fs = Some s -> update_handler (pretty car) (pretty j) fs = s.
Proof.
  intros H. unfold update_handler, read_file. rewrite decide_False; [unfold patch_path in H; by rewrite H|].
  rewrite <- z_text_pretty. unfold z_text. destruct (j <? 0); [done|]. apply TjsonLemmas.dec_text_plain.
Qed.
End web.
(** The handlers after a run. *)
Lemma web_run T num fmt0 compound no_text e o dataset cars n c m size b d fs :
  alookup "dataset" o = Some (WStr dataset) -> alookup "cars" o = Some (WInt cars) -> alookup "files" o = Some (WInt n) ->
  alookup "change_rate" o = Some (WNum c) -> alookup "maintain_rate" o = Some (WNum m) -> alookup "size" o = Some (WNum size) ->
  new_vss (e_read e dataset) = Ok (Vss b d) -> good_schema T num d -> good_env T num e ->
  exists fs' D, run_generate T num fmt0 compound no_text e o fs = (fs', Ok tt) ∧ forall i, 1 <= i <= cars ->
    data_file T (D i 1) (update_handler (pretty i) "" fs') ∧
    (forall j, 2 <= j <= n -> patch_file T (D i 1) (D i j) (update_handler (pretty i) (pretty j) fs')) ∧
    (forall k h h' s, k <= n -> patch_handler T i k fs' h = (h', Ok s) ->
      s = "null" ∧ (forall j q v0 t0 v t, 2 <= j <= k -> cell (D i 1) q v0 t0 -> cell (D i j) q v t -> TsonSpec.prim_eq (as_prim v0) (as_prim v) ∧ same_stamp t0 t) ∨
      exists t', s = marshal_indent T t' "" "  " ∧ forall q v t, cell (D i 1) q v t -> at_path t' q = Some (TLeaf (as_prim v) t)).
Proof.
  intros O1 O2 O3 O4 O5 O6 EV GS GE.
  destruct (run_good T num fmt0 compound no_text e o dataset cars n c m size b d fs O1 O2 O3 O4 O5 O6 EV GS GE) as (fs' & D & E & _ & HI).
  exists fs', D. split; [done|]. intros i Hi. destruct (HI i Hi) as (H1 & _ & H3 & _).
  destruct (H1 1 ltac:(by left)) as (TD & s0 & E0 & F0).
  split; [by rewrite (update_first _ _ _ E0)|]. split.
  - intros j Hj. destruct (H3 j Hj) as (s & Es & Hs). by rewrite (update_later _ _ _ _ Es).
  - intros k h h' s Hk EP. apply (web_sent T num i k fs' h (D i 1) (D i) s0 (fun j => default "" (alookup (patch_path i j) fs')) h' s TD E0 F0); [|done].
    intros j Hj. destruct (H3 j ltac:(lia)) as (s1 & -> & Hs). done.
Qed.
