(** Totals, patches and final sensors of a run. *)
From Verif Require Import Base BaseSpec BaseLemmas F64 Tson Bytes TjsonSpec TjsonLemmas Vss Sensor Scenario Sim SimSpec SimTrace SimLemmas SimTimes SimDocs.

(** ** Times of each sensor *)
Lemma filter_sorted (f : Z -> bool) ts : StronglySorted Z.lt ts -> StronglySorted Z.lt (List.filter f ts).
Proof.
  induction 1 as [|t ts Hs IH Hf]; [constructor|]. cbn [List.filter]. destruct (f t); [|done]. constructor; [done|].
  rewrite List.Forall_forall in *. intros x [Hx _]%List.filter_In. by apply Hf.
Qed.
Lemma due_spec i t : i ≠ 0 -> due i t = true <-> (i | t).
Proof. intros Hi. unfold due. rewrite Z.eqb_eq. by apply Z.rem_divide. Qed.
Lemma filter_on us p : filter (fun q => sp_path q = p) (map set_of us) = map set_of (List.filter (on p) us).
Proof.
  induction us as [|u us IH]; [done|]. cbn [map List.filter]. rewrite filter_cons. unfold on at 1. cbn [sp_path set_of].
  destruct (decide (u_path u = p)) as [E|E].
  - rewrite bool_decide_true by done. cbn [map]. by rewrite IH.
  - rewrite bool_decide_false by done. done.
Qed.
Lemma shape_in (g : smap) p s : (p, s) ∈ g -> (p, s_interval s) ∈ shape g.
Proof. intros H. apply elem_of_list_fmap. by exists (p, s). Qed.
Lemma loop_not_nil D inc : 0 < D -> 0 < inc -> loop_times D inc ≠ [].
Proof.
  intros HD Hi E. assert (H : 0 ∈ loop_times D inc) by (apply loop_times_spec; [done|]; split; [lia|by apply Z.divide_0_r]).
  rewrite E in H. by apply elem_of_nil in H.
Qed.

Lemma run_all w v sc sec inc m : simulate w v sc sec inc = Ok m -> (forall t i g, Permutation (w_order w t i g) g) ->
  NoDup (akeys (sensors v)) -> 0 < inc ->
  exists m0 us, start w v sc = Ok m0 ∧ after m0 us m ∧
    Forall (fun u => u_time u ∈ loop_times (sec * 1000) inc ∧ u_path u ∈ akeys (sensors v)) us ∧
    (forall p s, (p, s) ∈ sensors v -> (0 < sec -> s_interval s ≠ 0) ∧
       map u_time (List.filter (on p) us) = List.filter (due (s_interval s)) (loop_times (sec * 1000) inc)) ∧
    StronglySorted Z.le (map u_time us) ∧
    m_times m = List.filter marked (loop_times (sec * 1000) inc) ∧
    m_jcounts m = map (patches_before us) (m_times m) ∧
    m_tcounts m = map (changes_before us) (m_times m).
Proof.
  intros (m0 & H0 & H)%simulate_inv Ho Hnd Hi. pose proof H0 as Hz. apply start_zero in Hz as (V & _ & _ & J & T & S & _ & _ & _ & _ & _ & M1 & M2 & M3 & _).
  apply run_times_times in H as (us & A & _ & F & P & St & N1 & N2 & N3); [|apply Ho|by rewrite V|by apply loop_times_sorted].
  rewrite V in F, P. exists m0, us. split; [done|]. split; [done|]. split; [done|]. split.
  { intros p s Hin. destruct (P p (s_interval s)) as [P1 P2]; [by apply shape_in|]. split; [|done].
    intros Hs. apply P1. apply loop_not_nil; lia. }
  split; [done|]. rewrite M1, J, T, M2, M3 in *. cbn [app length Nat.add] in *. by rewrite N2, N3, N1.
Qed.

Lemma update_times w v sc sec inc m : simulate w v sc sec inc = Ok m -> orders_ok w -> NoDup (akeys (sensors v)) -> 0 < inc ->
  StronglySorted Z.le (map sp_ts (m_spatches m)) ∧
  (forall q, q ∈ m_spatches m -> sp_path q ∈ akeys (sensors v)) ∧
  forall p s, (p, s) ∈ sensors v -> s_interval s ≠ 0 ->
    let ts := map sp_ts (filter (fun q => sp_path q = p) (m_spatches m)) in
    StronglySorted Z.lt ts ∧ forall t, t ∈ ts <-> time_step (sec * 1000) inc t ∧ (s_interval s | t).
Proof.
  intros H [Ho _] Hnd Hi. destruct (run_all _ _ _ _ _ _ H Ho Hnd Hi) as (m0 & us & H0 & A & F & P & St & _).
  apply start_zero in H0 as (_ & _ & _ & J & T & S & _). destruct A. rewrite af_sp, S. cbn [app].
  split; [by rewrite map_map|]. split.
  { intros q Hq. apply elem_of_list_fmap in Hq as (u & -> & Hu%elem_of_list_In). rewrite List.Forall_forall in F. by apply F. }
  intros p s Hin Hne. rewrite filter_on, map_map. cbn [sp_ts set_of]. destruct (P p s Hin) as [_ E].
  change (map (fun x => u_time x) (List.filter (on p) us)) with (map u_time (List.filter (on p) us)). rewrite E. split.
  - apply filter_sorted. by apply loop_times_sorted.
  - intros t. rewrite elem_of_list_In, List.filter_In, <- elem_of_list_In, (loop_times_spec _ _ _ Hi), (due_spec _ _ Hne). done.
Qed.
Lemma no_zero_interval w v sc sec inc m p s : simulate w v sc sec inc = Ok m -> orders_ok w -> NoDup (akeys (sensors v)) ->
  0 < inc -> 0 < sec -> (p, s) ∈ sensors v -> s_interval s ≠ 0.
Proof.
  intros H [Ho _] Hnd Hi Hs Hin. destruct (run_all _ _ _ _ _ _ H Ho Hnd Hi) as (m0 & us & H0 & A & F & P & _).
  destruct (P p s Hin) as [E _]. auto.
Qed.

(** ** Totals *)
Lemma sorted_unique (l l' : list Z) : StronglySorted Z.lt l -> StronglySorted Z.lt l' -> (forall x, x ∈ l <-> x ∈ l') -> l = l'.
Proof.
  intros H. revert l'. induction H as [|x l Hs IH Hx]; intros l' H' E.
  - destruct l' as [|y l']; [done|]. assert (y ∈ ([] : list Z)) by (apply E; by left). by apply elem_of_nil in H.
  - rewrite List.Forall_forall in Hx. destruct H' as [|y l' Hs' Hy].
    { assert (x ∈ ([] : list Z)) by (apply E; by left). by apply elem_of_nil in H. }
    rewrite List.Forall_forall in Hy.
    assert (x = y) as <-.
    { assert (H1 : x ∈ y :: l') by (apply E; by left). assert (H2 : y ∈ x :: l) by (apply E; by left).
      apply elem_of_cons in H1 as [|H1]; [done|]. apply elem_of_cons in H2 as [|H2]; [done|].
      apply elem_of_list_In, Hy in H1. apply elem_of_list_In, Hx in H2. lia. }
    f_equal. apply IH; [done|]. intros z. split; intros Hz.
    + assert (H1 : z ∈ x :: l') by (apply E; by right). apply elem_of_cons in H1 as [->|]; [|done].
      apply elem_of_list_In, Hx in Hz. lia.
    + assert (H1 : z ∈ x :: l) by (apply E; by right). apply elem_of_cons in H1 as [->|]; [|done].
      apply elem_of_list_In, Hy in Hz. lia.
Qed.
Lemma lcm_pos a b : 0 < a -> b ≠ 0 -> 0 < Z.lcm a b.
Proof.
  intros Ha Hb. pose proof (Z.lcm_nonneg a b). assert (Z.lcm a b ≠ 0); [|lia]. rewrite Z.lcm_eq_0. lia.
Qed.
Lemma due_loop D inc i : 0 < inc -> i ≠ 0 -> List.filter (due i) (loop_times D inc) = loop_times D (Z.lcm inc i).
Proof.
  intros Hi Hn. pose proof (lcm_pos inc i Hi Hn). apply sorted_unique.
  - apply filter_sorted. by apply loop_times_sorted.
  - by apply loop_times_sorted.
  - intros t. rewrite elem_of_list_In, List.filter_In, <- elem_of_list_In, !loop_times_spec, due_spec by done. unfold time_step.
    split.
    + intros [[? ?] ?]. split; [done|]. by apply Z.lcm_least.
    + intros [? Hd]. split; [split; [done|]|].
      * etransitivity; [apply Z.divide_lcm_l|exact Hd].
      * etransitivity; [apply Z.divide_lcm_r|exact Hd].
Qed.
Lemma loop_length D inc : 0 < D -> 0 < inc -> Z.of_nat (length (loop_times D inc)) = (D - 1) / inc + 1.
Proof.
  intros HD Hi. unfold loop_times. rewrite map_length, seq_length.
  replace (D + inc - 1) with ((D - 1) + 1 * inc) by lia. rewrite Z.div_add by lia. assert (0 <= (D - 1) / inc) by (apply Z.div_pos; lia). lia.
Qed.
Lemma split_length (us : list upd) ks : NoDup ks -> Forall (fun u => u_path u ∈ ks) us ->
  length us = foldr (fun p n => length (List.filter (on p) us) + n)%nat 0%nat ks.
Proof.
  intros Hnd. induction us as [|u us IH]; intros Hf.
  - clear. induction ks as [|k ks IH]; [done|exact IH].
  - inversion Hf as [|? ? Hu Hf']; subst. cbn [length]. rewrite (IH Hf'). clear IH Hf Hf'.
    induction ks as [|p ks IH]; [by apply elem_of_nil in Hu|]. apply NoDup_cons in Hnd as [Hp Hnd]. cbn [foldr List.filter].
    destruct (decide (u_path u = p)) as [E|E].
    + unfold on at 3. rewrite bool_decide_true by done. cbn [length].
      assert (G : foldr (fun p n => length (List.filter (on p) (u :: us)) + n)%nat 0%nat ks =
                  foldr (fun p n => length (List.filter (on p) us) + n)%nat 0%nat ks).
      { clear - Hp E. induction ks as [|q ks IH]; [done|]. rewrite not_elem_of_cons in Hp. destruct Hp as [Hpq Hp]. cbn [foldr].
        rewrite (IH Hp). f_equal. cbn [List.filter]. unfold on at 1. rewrite bool_decide_false by congruence. done. }
      cbn [List.filter] in G. rewrite G. lia.
    + unfold on at 3. rewrite bool_decide_false by done. apply elem_of_cons in Hu as [|Hu]; [done|].
      specialize (IH Hnd Hu). cbn [List.filter] in IH. lia.
Qed.
Lemma update_total w v sc sec inc m : simulate w v sc sec inc = Ok m -> orders_ok w -> NoDup (akeys (sensors v)) -> 0 < inc -> 0 < sec ->
  m_updates m = total_updates (sec * 1000) inc (map (fun x => s_interval (snd x)) (sensors v)).
Proof.
  intros H [Ho Ho2] Hnd Hi Hs. destruct (run_all _ _ _ _ _ _ H Ho Hnd Hi) as (m0 & us & H0 & A & F & P & _).
  apply start_zero in H0 as (_ & _ & _ & _ & _ & _ & U & _). destruct A. rewrite af_updates, U. unfold count. rewrite Z.add_0_l.
  rewrite (split_length us (akeys (sensors v)) Hnd).
  2:{ eapply List.Forall_impl; [|exact F]. by intros u []. }
  clear - P Hi Hs. unfold akeys, total_updates. revert P. generalize (sensors v). intros xs. induction xs as [|[p s] xs IH]; intros P; [done|].
  cbn [map foldr fst snd]. rewrite Nat2Z.inj_add, IH by (intros; apply P; by right). f_equal.
  destruct (P p s) as [P1 P2]; [by left|]. rewrite <- (map_length u_time), P2, due_loop by auto.
  apply loop_length; [lia|]. apply lcm_pos; auto.
Qed.

(** ** Cumulative counts *)
Lemma timing_before t us : forall n, length (List.filter (fun r => tm_time r <? t) (timing_of n us)) = length (List.filter (fun u => u_time u <? t) us).
Proof.
  induction us as [|u us IH]; intros n; [done|]. cbn [timing_of List.filter tm_time]. destruct (u_time u <? t); cbn [length]; by rewrite IH.
Qed.
Lemma timing_changed t us : forall n, length (List.filter (fun r => (tm_time r <? t) && tm_changed r) (timing_of n us)) = changes_before us t.
Proof.
  induction us as [|u us IH]; intros n; [done|]. unfold changes_before, changed_only in *. cbn [timing_of List.filter tm_time tm_changed].
  destruct (u_time u <? t); cbn [andb]; [|by rewrite IH]. cbn [List.filter]. destruct (u_changed u); cbn [length]; by rewrite IH.
Qed.
Lemma cumulative w v sc sec inc m : simulate w v sc sec inc = Ok m -> orders_ok w -> NoDup (akeys (sensors v)) -> 0 < inc ->
  StronglySorted Z.lt (m_times m) ∧ (forall t, t ∈ m_times m <-> time_step (sec * 1000) inc t ∧ (10000 | t)) ∧
  m_tcounts m = map (fun t => length (List.filter (fun r => (tm_time r <? t) && tm_changed r) (m_timing m))) (m_times m) ∧
  m_jcounts m = map (fun t => (length (List.filter (fun r => (tm_time r <? t)%Z) (m_timing m)) +
                               length (List.filter (fun r => (tm_time r <? t)%Z && tm_changed r) (m_timing m)))%nat) (m_times m).
Proof.
  intros H [Ho _] Hnd Hi. destruct (run_all _ _ _ _ _ _ H Ho Hnd Hi) as (m0 & us & H0 & A & F & _ & _ & N1 & N2 & N3).
  apply start_zero in H0 as (_ & _ & _ & _ & _ & _ & U & _ & _ & G & _). destruct A. rewrite af_timing, U, G, N2, N3. cbn [app].
  split. { rewrite N1. apply filter_sorted. by apply loop_times_sorted. }
  split. { intros t. rewrite N1, elem_of_list_In, List.filter_In, <- elem_of_list_In, (loop_times_spec _ _ _ Hi).
           change (marked t) with (due 10000 t). by rewrite due_spec. }
  split; apply map_ext; intros t; rewrite ?timing_before, timing_changed; [done|]. unfold patches_before, changes_before. done.
Qed.

(** ** JSON patches *)
Lemma last_json_app ps ps' p o : last_json ps' p o ->
  last_json (ps ++ ps') p (match o with Some x => Some x | None => o end) ∨ o = None.
Proof.
  inversion 1 as [Hno E|a q b E Hq Hb Eo]; [by right|left]. subst. by apply (lj_last _ _ (ps ++ a) q b); [rewrite <- app_assoc|..].
Qed.
Lemma last_json_det ps p o o' : last_json ps p o -> last_json ps p o' -> o = o'.
Proof.
  intros H H'. inversion H as [Hno E1|a q b E Hq Hb E1]; inversion H' as [Hno' F1|a' q' b' E' Hq' Hb' F1]; subst.
  - done.
  - exfalso. by apply (Hno q'); [set_solver|].
  - exfalso. apply (Hno' q); [set_solver|done].
  - assert (q = q'); [|by subst]. clear H H'.
    revert a' E'. induction a as [|x a IH]; intros [|x' a'] E'; cbn in E'.
    + congruence.
    + injection E' as -> ->. exfalso. apply (Hb q'); [set_solver|done].
    + injection E' as -> E'. exfalso. apply (Hb' q); [set_solver|done].
    + injection E' as -> E'. by apply (IH a').
Qed.
Lemma last_json_same ps p q x : jp_path q = p -> jp_value q = x -> last_json (ps ++ [q]) p (Some x).
Proof. intros E <-. apply (lj_last _ _ ps q []); [done|done|]. by intros q' ?%elem_of_nil. Qed.
Lemma last_json_skip ps p q o : jp_path q ≠ p -> last_json ps p o -> last_json (ps ++ [q]) p o.
Proof.
  intros Hne H. inversion H as [Hno E1|a q' b E Hq Hb E1]; subst.
  - apply lj_none. intros q' [Hq|Hq%elem_of_list_singleton]%elem_of_app; [by apply Hno|by subst].
  - apply (lj_last _ _ a q' (b ++ [q])); [by rewrite <- app_assoc|done|].
    intros q0 [Hq|Hq%elem_of_list_singleton]%elem_of_app; [by apply Hb|by subst].
Qed.
Lemma slist_app s t : list_ascii_of_string (s +++ t) = list_ascii_of_string s ++ list_ascii_of_string t.
Proof. induction s as [|c s IH]; [done|]. cbn. by rewrite IH. Qed.
Lemma slist_inj s t : list_ascii_of_string s = list_ascii_of_string t -> s = t.
Proof. intros E. by rewrite <- (string_of_list_ascii_of_string s), E, string_of_list_ascii_of_string. Qed.
Lemma same_end s t e : s +++ e = t +++ e -> s = t.
Proof. intros E. apply (f_equal list_ascii_of_string) in E. rewrite !slist_app in E. apply app_inv_tail in E. by apply slist_inj. Qed.
Lemma other_end s t : s +++ "/timestamp" ≠ t +++ "/value".
Proof.
  intros E. apply (f_equal (fun x => rev (list_ascii_of_string x))) in E. rewrite !slist_app, !rev_app_distr in E. done.
Qed.
(** The last of the updates of a path, if any. *)
Definition last_upd (us : list upd) (p : string) : option upd := List.last (map Some (List.filter (on p) us)) None.
Lemma last_upd_snoc us u p : last_upd (us ++ [u]) p = if decide (u_path u = p) then Some u else last_upd us p.
Proof.
  unfold last_upd. rewrite List.filter_app. cbn [List.filter]. unfold on at 2. destruct (decide (u_path u = p)) as [E|E].
  - rewrite bool_decide_true by done. rewrite map_app. cbn [map]. by rewrite last_last.
  - rewrite bool_decide_false by done. by rewrite app_nil_r.
Qed.
Lemma last_upd_latest us p v0 z0 : latest (map set_of us) p v0 z0
  (match last_upd us p with Some u => u_value u | None => v0 end) (match last_upd us p with Some u => u_time u | None => z0 end).
Proof.
  pose proof (cur_latest us (fun _ => (v0, z0)) p) as H. cbn [fst snd] in H.
  assert (E : cur_json us (fun _ => (v0, z0)) p = match last_upd us p with Some u => (u_value u, u_time u) | None => (v0, z0) end).
  { clear. induction us as [|u us IH] using rev_ind; [done|]. rewrite cur_snoc, last_upd_snoc.
    destruct (decide (p = u_path u)) as [->|Hne]; [by rewrite decide_True|]. by rewrite decide_False. }
  rewrite E in H. by destruct (last_upd us p).
Qed.
Lemma last_json_upd us p :
  last_json (concat (map json_of us)) (p +++ "/timestamp") (match last_upd us p with Some u => Some (PTime (u_time u)) | None => None end) ∧
  last_json (concat (map json_of us)) (p +++ "/value")
    (match last_upd (changed_only us) p with Some u => Some (PVal (u_value u)) | None => None end).
Proof.
  induction us as [|u us [IH1 IH2]] using rev_ind; [split; apply lj_none; by intros q ?%elem_of_nil|].
  rewrite map_app, concat_app, changed_app, last_upd_snoc. cbn [map concat]. rewrite app_nil_r. unfold json_of at 2 4, changed_only at 2.
  cbn [List.filter]. split.
  - assert (G : last_json (concat (map json_of us) ++ [JPatch (u_path u +++ "/timestamp") (PTime (u_time u))]) (p +++ "/timestamp")
      (match (if decide (u_path u = p) then Some u else last_upd us p) with Some u => Some (PTime (u_time u)) | None => None end)).
    { destruct (decide (u_path u = p)) as [<-|Hne]; [by apply last_json_same|]. apply last_json_skip; [|done].
      cbn. intros E. apply Hne. by eapply same_end. }
    destruct (u_changed u); [|done]. rewrite (app_assoc _ [_] [_] : _ ++ _ :: [_] = _). apply last_json_skip; [|done].
    cbn. intros E. by apply (other_end p (u_path u)).
  - destruct (u_changed u).
    + rewrite last_upd_snoc, (app_assoc _ [_] [_] : _ ++ _ :: [_] = _). destruct (decide (u_path u = p)) as [<-|Hne]; [by apply last_json_same|].
      apply last_json_skip. { cbn. intros E. apply Hne. by eapply same_end. }
      apply last_json_skip; [|done]. cbn. apply other_end.
    + rewrite app_nil_r. apply last_json_skip; [|done]. cbn. apply other_end.
Qed.
Lemma patches_replay w v sc sec inc m p o o' v0 z0 x z x' z' : simulate w v sc sec inc = Ok m ->
  last_json (m_jpatches m) (p +++ "/timestamp") o -> last_json (m_jpatches m) (p +++ "/value") o' ->
  latest (m_spatches m) p v0 z0 x z -> latest (m_tpatches m) p v0 z0 x' z' ->
  (match o with Some y => y = PTime z | None => z = z0 end) ∧ (match o' with Some y => y = PVal x' | None => x' = v0 end).
Proof.
  intros (m0 & us & H0 & _ & A)%simulate_after J1 J2 L1 L2. apply start_zero in H0 as (_ & _ & _ & J & T & S & _).
  destruct A. rewrite af_jp, J in J1, J2. rewrite af_sp, S in L1. rewrite af_tp, T in L2. cbn [app] in *.
  destruct (last_json_upd us p) as [E1 E2]. rewrite (last_json_det _ _ _ _ J1 E1), (last_json_det _ _ _ _ J2 E2).
  destruct (latest_det _ _ _ _ _ _ _ _ L1 (last_upd_latest us p v0 z0)) as [-> ->].
  destruct (latest_det _ _ _ _ _ _ _ _ L2 (last_upd_latest (changed_only us) p v0 z0)) as [-> ->].
  by destruct (last_upd us p), (last_upd (changed_only us) p).
Qed.

(** ** Final sensors *)
Lemma last_cons {A} (x : A) l d : List.last (x :: l) d = List.last l x.
Proof. revert x d. induction l as [|y l IH]; intros x d; [done|]. change (List.last (y :: l) d = List.last (y :: l) x). by rewrite !IH. Qed.
Lemma last_map {A} (f : upd -> A) us d : List.last (map f us) d = match List.last (map Some us) None with Some u => f u | None => d end.
Proof. induction us as [|u us IH] using rev_ind; [done|]. rewrite !map_app. cbn [map]. by rewrite !last_last. Qed.
Lemma evolves_last v us v' : evolves v us v' ->
  v' = List.last (map u_value (changed_only us)) v ∧ close v' (List.last (map u_value us) v).
Proof.
  intros H.
  assert (K : v' = List.last (map u_value (changed_only us)) v ∧
    (v' = List.last (map u_value us) v ∨ is_equal v' (List.last (map u_value us) v) = true)).
  { induction H as [v|v u us v' Hc H [IH1 IH2]]; [by auto|]. unfold changed_only in *. cbn [List.filter map]. rewrite last_cons. split.
    - destruct (u_changed u); [|done]. cbn [map]. by rewrite last_cons.
    - destruct us as [|u' us]; [|cbn [map] in IH2 |- *; by rewrite last_cons in IH2 |- *]. cbn in *.
      destruct (u_changed u); [by left|]. subst. right. by destruct (is_equal v (u_value u)). }
  destruct K as [K1 K2]. split; [done|]. revert K2. generalize (List.last (map u_value us) v). intros x [->|K2]; [constructor|].
  unfold is_equal in K2. destruct v' as [a|a|a], x as [b|b|b]; try done.
  - apply bool_decide_eq_true in K2. subst. constructor.
  - by apply cl_num.
  - apply Bool.eqb_prop in K2. subst. constructor.
Qed.
Lemma filter_comm {A} (f g : A -> bool) l : List.filter f (List.filter g l) = List.filter g (List.filter f l).
Proof. induction l as [|x l IH]; [done|]. cbn. destruct (f x) eqn:Ef, (g x) eqn:Eg; cbn; rewrite ?Ef, ?Eg, ?IH; done. Qed.
Lemma solo_times_path w ts p s s' us : solo_times w ts p s = Ok (s', us) -> Forall (fun u => u_path u = p) us.
Proof.
  revert s us. induction ts as [|t ts IH]; intros s us; cbn [solo_times]; [by intros [= <- <-]|].
  destruct (solo w t p s) as [[s1 us1]| |] eqn:E; cbn [rbind fst snd]; [|done|done].
  destruct (solo_times w ts p s1) as [[s2 us2]| |] eqn:E2; cbn [rbind fst snd]; [|done|done]. intros [= <- <-].
  apply Forall_app. split; [|by eapply IH]. apply solo_paths in E. eapply List.Forall_impl; [|exact E]. by intros u [].
Qed.

Lemma solo_final w ts p s s' us all : solo_times w ts p s = Ok (s', us) -> us = List.filter (on p) all ->
  exists z x, latest (map set_of (changed_only all)) p (s_value s) (s_stamp s) (s_value s') z ∧
    latest (map set_of all) p (s_value s) (s_stamp s) x (s_stamp s') ∧ close (s_value s') x ∧ s_path s' = s_path s.
Proof.
  intros H ->. apply solo_times_facts in H as (_ & _ & Hp & _ & _ & _ & _ & E & St). apply evolves_last in E as [E1 E2].
  pose proof (last_upd_latest (changed_only all) p (s_value s) (s_stamp s)) as L1.
  pose proof (last_upd_latest all p (s_value s) (s_stamp s)) as L2. unfold last_upd in L1, L2.
  unfold changed_only in L1 at 2 3. rewrite filter_comm in L1. fold (changed_only (List.filter (on p) all)) in L1. rewrite <- !last_map, <- E1 in L1.
  rewrite <- !last_map, <- St in L2. eexists _, _. split; [exact L1|]. split; [exact L2|]. by split.
Qed.
Lemma final_sensors w v sec inc m : simulate w v None sec inc = Ok m -> orders_ok w -> NoDup (akeys (sensors v)) ->
  Permutation (akeys (sensors (m_vehicle m))) (akeys (sensors v)) ∧
  forall p s, (p, s) ∈ sensors v -> exists s' z x, (p, s') ∈ sensors (m_vehicle m) ∧
    latest (m_tpatches m) p (s_value s) (s_stamp s) (s_value s') z ∧
    latest (m_spatches m) p (s_value s) (s_stamp s) x (s_stamp s') ∧ close (s_value s') x.
Proof.
  intros (m0 & H0 & H)%simulate_inv [Ho _] Hnd. apply start_zero in H0 as (V & Sc & _ & J & T & S & _).
  apply run_times_solo in H as (uss & A & _ & K & _ & _ & P); [|done|done|by rewrite V].
  rewrite V in *. split; [done|]. intros p s Hin. destruct (P p s Hin) as (s' & E & Hin'). destruct A. rewrite af_sp, af_tp, S, T. cbn [app].
  destruct (solo_final _ _ _ _ _ _ (concat uss) E eq_refl) as (z & x & L1 & L2 & C & _). by exists s', z, x.
Qed.
