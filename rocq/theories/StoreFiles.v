(** The files of a run are read back. *)
From Verif Require Import Base BaseSpec BaseLemmas BaseSpecLemmas F64 Tson TsonInd TsonSpec Bytes BytesLemmas ConvLemmas Serial TextSpec MarshalText Heap Patch Tjson TjsonSpec Initial Sensor Scenario Sim SimSpec SimTrace SimLemmas SimDocs
  Json JsonSpec JsonLemmas JsonChars JsonParse JsonRead JsonWrite JsonTson RangeSpec Temporal TemporalSpec TempRun Report Store StoreSpec StoreText.

(** ** UTF-8 *)
Lemma utf8_app s t : utf8 s -> utf8 t -> utf8 (s +++ t).
Proof. induction 1; intros Ht; [done|by constructor; auto|]. rewrite sapp_assoc. constructor; auto. Qed.
Lemma ascii_utf8 s : (fix go s := match s with "" => true | String a s' => (N_of_ascii a <? 128)%N && go s' end) s = true -> utf8 s.
Proof. induction s as [|a s IH]; [constructor|]. intros [H1%N.ltb_lt H2]%andb_true_iff. constructor; auto. Qed.
Lemma split_head c s : exists x l, split_on c s = x :: l.
Proof. induction s as [|a s (x & l & IH)]; cbn [split_on]; [by eexists _, _|]. case_decide; [by eexists _, _|]. rewrite IH. by eexists _, _. Qed.
Lemma split_free c u s x l : (forall a y z, u = y +++ String a z -> a <> c) -> split_on c s = x :: l -> split_on c (u +++ s) = (u +++ x) :: l.
Proof.
  intros Hu E. induction u as [|a u IH]; [done|]. cbn [String.append split_on]. rewrite decide_False by (by apply (Hu a "" u)).
  rewrite IH; [done|]. intros b y z ->. by apply (Hu b (String a y) z).
Qed.
Lemma utf8_split s : utf8 s -> Forall utf8 (split_on dot s).
Proof.
  induction 1 as [|a s Ha Hs IH|r s Hr Hs IH].
  - constructor; constructor.
  - cbn [split_on]. case_decide; [constructor; [constructor|done]|]. destruct (split_head dot s) as (x & l & E). rewrite E in *.
    inversion IH; subst. by repeat constructor.
  - destruct (split_head dot s) as (x & l & E). rewrite E in *. inversion IH as [|? ? H1 H2]; subst. rewrite (split_free dot _ s x l); [|  |done].
    + constructor; [by constructor|done].
    + intros a y z Ea ->. pose proof (form_high _ (utf8_form r Hr) y z dot Ea) as Hh. vm_compute in Hh. by destruct Hh.
Qed.

(** ** The directory *)
Lemma padded_year : forallb (fun i => String.eqb (padded 4 (Z.of_nat i)) (last_digits 4 (Z.of_nat i))) (seq 0 (100 * 100)) = true.
Proof. vm_compute. reflexivity. Qed.
Lemma padded_part : forallb (fun i => String.eqb (padded 2 (Z.of_nat i)) (last_digits 2 (Z.of_nat i))) (seq 0 100) = true.
Proof. vm_compute. reflexivity. Qed.
Lemma padded_4 n : 0 <= n < 10000 -> padded 4 n = last_digits 4 n.
Proof.
  intros H. pose proof padded_year as C. rewrite forallb_forall in C. specialize (C (Z.to_nat n)). rewrite Z2Nat.id in C by lia.
  apply String.eqb_eq, C, in_seq. lia.
Qed.
Lemma padded_2 n : 0 <= n < 100 -> padded 2 n = last_digits 2 n.
Proof.
  intros H. pose proof padded_part as C. rewrite forallb_forall in C. specialize (C (Z.to_nat n)). rewrite Z2Nat.id in C by lia.
  apply String.eqb_eq, C, in_seq. lia.
Qed.
Lemma last_more k a b : last_digits k (a * 10 ^ Z.of_nat k + b) = last_digits k b.
Proof.
  revert a. induction k as [|k IH]; intros a; [done|]. cbn [last_digits].
  assert (E : 10 ^ Z.of_nat (S k) = 10 * 10 ^ Z.of_nat k) by (rewrite Nat2Z.inj_succ, Z.pow_succ_r by lia; done).
  assert (P : 0 < 10 ^ Z.of_nat k) by (apply Z.pow_pos_nonneg; lia).
  f_equal.
  - do 3 f_equal. rewrite E. replace (a * (10 * 10 ^ Z.of_nat k) + b) with (b + (a * 10) * 10 ^ Z.of_nat k) by lia.
    rewrite Z.div_add by lia. by rewrite Z.mod_add by lia.
  - rewrite E. replace (a * (10 * 10 ^ Z.of_nat k) + b) with ((a * 10) * 10 ^ Z.of_nat k + b) by lia. apply IH.
Qed.
Lemma last_split j k n : last_digits (j + k) n = last_digits j (n / 10 ^ Z.of_nat k) +++ last_digits k n.
Proof.
  induction j as [|j IH]; [done|]. cbn [Nat.add last_digits String.append]. rewrite IH. do 4 f_equal.
  rewrite Z.div_div by (apply Z.pow_pos_nonneg || apply Z.pow_nonzero; lia). rewrite <- Z.pow_add_r by lia. do 2 f_equal. f_equal. lia.
Qed.
Lemma last_join j k a b : 0 <= b < 10 ^ Z.of_nat k -> last_digits (j + k) (a * 10 ^ Z.of_nat k + b) = last_digits j a +++ last_digits k b.
Proof.
  intros H. rewrite last_split, last_more. do 2 f_equal. rewrite Z.add_comm, Z.div_add by lia. rewrite Z.div_small by done. lia.
Qed.
Lemma run_dir_run c : clock_ok c -> is_run (run_dir c) (clock_number c).
Proof.
  intros (Y & M & D & H & N & S). unfold is_run. split; [unfold clock_number; lia|]. unfold run_dir.
  rewrite padded_4, !padded_2 by lia.
  assert (E : clock_number c = ((ck_year c * 100 + ck_month c) * 100 + ck_day c) * 10 ^ 6 + ((ck_hour c * 100 + ck_minute c) * 100 + ck_second c)) by (unfold clock_number; lia).
  rewrite E. change (10 ^ 6) with (10 ^ Z.of_nat 6). rewrite last_more. rewrite Z.add_comm, Z.div_add, Z.div_small, Z.add_0_l by (cbn; lia).
  change 100 with (10 ^ Z.of_nat 2). change 8%nat with (6 + 2)%nat. change 6%nat with (4 + 2)%nat.
  rewrite !last_join by (cbn; lia). change 4%nat with (2 + 2)%nat at 3. rewrite !last_join by (cbn; lia). by rewrite !sapp_assoc.
Qed.
Lemma run_dir_later c c' : clock_ok c -> clock_ok c' -> before c c' -> clock_number c < clock_number c'.
Proof.
  intros (Y & M & D & H & N & S) (Y' & M' & D' & H' & N' & S') (l & x & r & x' & r' & E & E' & Hx). unfold clock_parts in *. unfold clock_number.
  destruct l as [|? [|? [|? [|? [|? [|? [|]]]]]]]; cbn in E, E'; simplify_eq; lia.
Qed.

(** ** Documents *)
Section files.
Context (T : textlib) (num : f64 -> string).
Notation good := (survives T num).
Definition good_doc (m : doc) : Prop := NoDup (map fst m) ∧ Forall (fun kv => utf8 (fst kv) ∧ good (snd kv)) m.
Lemma good_obj m : good (WObj m) <-> good_doc m.
Proof. split; [intros H; by inversion H|intros [H1 H2]; by constructor]. Qed.
Lemma good_nil : good_doc [].
Proof. split; constructor. Qed.
Lemma good_insert k w m : utf8 k -> good w -> good_doc m -> good_doc (ainsert k w m).
Proof.
  intros Hk Hw [H1 H2]. split; [by apply NoDup_ainsert|]. clear H1. induction m as [|[k' w'] m IH]; cbn [ainsert].
  - constructor; [done|constructor].
  - inversion H2; subst. case_decide; [subst|]; constructor; auto.
Qed.
Lemma good_lookup k w m : good_doc m -> alookup k m = Some w -> good w.
Proof. intros [_ H] E. apply alookup_Some_in in E. rewrite Forall_forall in H. by apply (H _ E). Qed.
Lemma good_prim p : prim_kept T num p -> good (write_prim p).
Proof. destruct p; cbn; by constructor. Qed.
Lemma good_leaf stamp p z : utf8 stamp -> stamp <> "value" -> prim_kept T num p -> int_kept T z -> good (leaf_obj stamp p z).
Proof.
  intros H1 H2 H3 H4. constructor.
  - constructor; [by intros ?%elem_of_list_singleton|]. constructor; [apply not_elem_of_nil|constructor].
  - constructor; [split; [by apply ascii_utf8|by apply good_prim]|]. constructor; [split; [done|by constructor]|constructor].
Qed.
Lemma good_add stamp ks p z m m' : utf8 stamp -> stamp <> "value" -> prim_kept T num p -> int_kept T z -> Forall utf8 ks -> good_doc m ->
  add_path stamp ks p z m = Ok m' -> good_doc m'.
Proof.
  intros H1 H2 H3 H4 Hk. revert m m'. induction Hk as [|k ks Hk HF IH]; intros m m' Hm; [done|]. cbn [add_path]. destruct ks as [|k2 ks].
  - intros [= <-]. apply good_insert; [done|by apply good_leaf|done].
  - destruct (alookup k m) as [w|] eqn:E.
    + destruct w; try done. pose proof (good_lookup _ _ _ Hm E) as Hg%good_obj.
      destruct (add_path stamp (k2 :: ks) p z m0) as [c| |] eqn:Ec; try done. cbn [rbind]. intros [= <-]. apply good_insert; [done| |done].
      apply good_obj. by apply (IH _ _ Hg Ec).
    + destruct (add_path stamp (k2 :: ks) p z []) as [c| |] eqn:Ec; try done. cbn [rbind]. intros [= <-]. apply good_insert; [done| |done].
      apply good_obj. by apply (IH _ _ good_nil Ec).
Qed.
Lemma good_all stamp xs m m' : utf8 stamp -> stamp <> "value" ->
  (forall p s, (p, s) ∈ xs -> utf8 p ∧ prim_kept T num (s_value s) ∧ int_kept T (s_stamp s)) -> good_doc m -> add_all stamp xs m = Ok m' -> good_doc m'.
Proof.
  intros H1 H2. revert m. induction xs as [|[p s] xs IH]; intros m Hx Hm; cbn [add_all]; [by intros [= <-]|].
  destruct (add_sensor stamp (p, s) m) as [m1| |] eqn:E; try done. cbn [rbind]. apply IH; [intros q s' Hin; apply Hx; by right|].
  destruct (Hx p s) as (Hp & Hv & Hz); [by left|]. unfold add_sensor in E. cbn [fst snd] in E.
  apply (good_add stamp (split_on dot p) (s_value s) (s_stamp s) m m1 H1 H2 Hv Hz (utf8_split _ Hp) Hm E).
Qed.
Lemma good_update (put : option wjson -> wjson) ks m : Forall utf8 ks -> good_doc m ->
  (forall old, (forall w, old = Some w -> good w) -> good (put old)) -> good_doc (update_doc put ks m).
Proof.
  intros Hk Hm Hp. revert m Hm. induction Hk as [|k ks Hk HF IH]; intros m Hm; [done|]. cbn [update_doc]. destruct ks as [|k2 ks].
  - apply good_insert; [done| |done]. apply Hp. intros w E. by apply (good_lookup _ _ _ Hm E).
  - apply good_insert; [done| |done]. apply good_obj, IH. destruct (alookup k m) as [w|] eqn:E; [|apply good_nil].
    pose proof (good_lookup _ _ _ Hm E) as Hg. destruct w; try apply good_nil. by apply good_obj.
Qed.
Lemma stamp_json : utf8 "timestamp". Proof. by apply ascii_utf8. Qed.
Lemma stamp_tson : utf8 "_ts". Proof. by apply ascii_utf8. Qed.
Lemma good_put p z old : prim_kept T num p -> int_kept T z -> (forall w, old = Some w -> good w) -> good (put_json p z old).
Proof.
  intros Hp Hz Ho. unfold put_json. destruct old as [w|]; [|by apply good_leaf; [apply stamp_json|..]].
  specialize (Ho w eq_refl). destruct w; try (by apply good_leaf; [apply stamp_json|..]). apply good_obj.
  apply good_insert; [apply stamp_json|by constructor|]. apply good_insert; [by apply ascii_utf8|by apply good_prim|by apply good_obj].
Qed.

(** ** The documents of a run *)
Definition update_good (u : upd) : Prop := utf8 (u_path u) ∧ prim_kept T num (u_value u) ∧ int_kept T (u_time u).
Lemma good_json_after us d : Forall update_good us -> good_doc d -> good_doc (json_after us d).
Proof.
  unfold json_after. intros H. revert d. induction H as [|u us (Hp & Hv & Hz) _ IH]; intros d Hd; [done|]. cbn [fold_left]. apply IH.
  apply good_update; [by apply utf8_split|done|]. intros old. by apply good_put.
Qed.
Lemma good_tson_after us d : Forall update_good us -> good_doc d -> good_doc (tson_after us d).
Proof.
  unfold tson_after. intros H. revert d. induction H as [|u us (Hp & Hv & Hz) _ IH]; intros d Hd; [done|]. cbn [fold_left]. apply IH.
  destruct (u_changed u); [|done]. apply good_update; [by apply utf8_split|done|]. intros old _. by apply good_leaf; [apply stamp_tson|..].
Qed.
Lemma good_start w v sc m0 m : start w v sc = Ok m0 -> orders_ok w -> run_survives T num v m -> good_doc (m_json m0) ∧ good_doc (m_tson m0).
Proof.
  intros H [_ Ho] [Hs _]. apply start_zero in H as (_ & _ & _ & _ & _ & _ & _ & _ & _ & _ & _ & _ & _ & _ & J & S).
  assert (G : forall stamp, utf8 stamp -> stamp <> "value" -> forall d, vehicle_doc stamp (reorder (w_doc_order w stamp) 0 v) = Ok d -> good_doc d).
  { intros stamp H1 H2 d E. unfold vehicle_doc in E. apply (good_all stamp _ [] d H1 H2) in E; [done| |apply good_nil].
    intros p s Hin. apply Hs. unfold sensors. by rewrite <- (reorder_permutation (w_doc_order w stamp) 0 v (Ho stamp)). }
  split; [by apply (G "timestamp" stamp_json)|by apply (G "_ts" stamp_tson)].
Qed.
Lemma good_final w v sc sec inc m0 m : simulate w v sc sec inc = Ok m -> start w v sc = Ok m0 -> orders_ok w -> run_survives T num v m ->
  good_doc (m_json m) ∧ good_doc (m_tson m) ∧ exists us, m_jpatches m = concat (map SimTrace.json_of us) ∧ m_spatches m = map set_of us ∧ m_tpatches m = map set_of (changed_only us).
Proof.
  intros (m1 & us & H0 & _ & A)%simulate_after H1 Ho Hs. assert (E : Ok m1 = Ok m0) by congruence. injection E as ->.
  destruct (good_start w v sc m0 m H1 Ho Hs) as [GJ GT]. apply start_zero in H0 as (_ & _ & _ & Jp & Tp & Sp & _).
  destruct A. rewrite Jp in af_jp. rewrite Tp in af_tp. rewrite Sp in af_sp. cbn [app] in *.
  assert (F : Forall update_good us).
  { apply Forall_forall. intros u Hu. destruct Hs as [_ Hs]. destruct (Hs (set_of u)) as (H2 & H3 & H4 & _); [|done].
    rewrite af_sp. apply elem_of_list_fmap. by exists u. }
  split; [rewrite af_json; by apply good_json_after|]. split; [rewrite af_tson; by apply good_tson_after|]. by exists us.
Qed.
Lemma good_spatches l : (forall q, q ∈ l -> utf8 (sp_path q) ∧ prim_kept T num (sp_value q) ∧ int_kept T (sp_ts q) ∧ int64 (sp_ts q)) -> good (WArr (map spatch_written l)).
Proof.
  intros H. constructor. apply Forall_forall. intros x (q & -> & Hq)%elem_of_list_fmap. destruct (H q Hq) as (H1 & H2 & H3 & _).
  unfold spatch_written. constructor; [by apply (bool_decide_unpack (NoDup _)); vm_compute|].
  repeat (apply List.Forall_cons; [split; [by apply ascii_utf8|]|]); [constructor; by apply ascii_utf8|by constructor|by apply good_prim|by constructor|constructor].
Qed.
Lemma good_jpatches us : (forall u, u ∈ us -> utf8 (u_path u) ∧ prim_kept T num (u_value u) ∧ int_kept T (u_time u)) -> good (WArr (map jpatch_written (concat (map SimTrace.json_of us)))).
Proof.
  intros H. constructor. apply Forall_forall. intros x (q & -> & Hq)%elem_of_list_fmap.
  apply elem_of_list_In, in_concat in Hq as (l & Hl & Hq). apply in_map_iff in Hl as (u & <- & Hu%elem_of_list_In). destruct (H u Hu) as (H1 & H2 & H3).
  assert (G : utf8 (jp_path q) ∧ good (value_written (jp_value q))).
  { unfold SimTrace.json_of in Hq. destruct Hq as [<-|Hq].
    - cbn. split; [apply utf8_app; [done|by apply ascii_utf8]|by constructor].
    - destruct (u_changed u); [|done]. destruct Hq as [<-|[]]. cbn. split; [apply utf8_app; [done|by apply ascii_utf8]|by apply good_prim]. }
  destruct G as [G1 G2]. unfold jpatch_written. constructor; [by apply (bool_decide_unpack (NoDup _)); vm_compute|].
  repeat (apply List.Forall_cons; [split; [by apply ascii_utf8|]|]); [constructor; by apply ascii_utf8|by constructor|done|constructor].
Qed.
End files.
