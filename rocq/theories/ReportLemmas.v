(** The sizes of the patch lists as text, and the figures of a run. *)
From Verif Require Import Base BaseLemmas F64 Tson Bytes Serial Json JsonWrite Vss VssSpec Sensor Scenario Sim SimSpec SimTrace SimLemmas RangeSpec SimTable
  Temporal TempUrban Report.
From Verif Require SimExp SimFinal SimQuiet SimExp FloatOrder TempTimes ReportFloat.

(** ** Text *)
Lemma low_cont a : (bv a < 128)%N -> cont a = false.
Proof. intros H. unfold cont, Serial.in_range. rewrite (proj2 (N.leb_gt _ _) H). done. Qed.
Lemma low_range lo a hi : (bv a < 128)%N -> (128 <= lo)%N -> Serial.in_range lo (bv a) hi = false.
Proof. intros H L. unfold Serial.in_range. rewrite (proj2 (N.leb_gt lo (bv a))); [done|lia]. Qed.
Lemma low_2 x a : (bv a < 128)%N -> utf8_2 x a = false.
Proof. intros H. unfold utf8_2. rewrite (low_cont a) by done. apply andb_false_r. Qed.
Lemma low_3 x y a : (bv a < 128)%N -> utf8_3 x y a = false.
Proof. intros H. unfold utf8_3. by rewrite (low_cont a). Qed.
Lemma low_3' x y a : (bv a < 128)%N -> utf8_3 x a y = false.
Proof.
  intros H. unfold utf8_3. rewrite (low_cont a) by done. rewrite !(low_range _ a) by (done || lia).
  rewrite !andb_false_r. done.
Qed.
Lemma low_4 x y z a : (bv a < 128)%N -> utf8_4 x y z a = false.
Proof. intros H. unfold utf8_4. rewrite (low_cont a) by done. by rewrite andb_false_r. Qed.
Lemma low_4' x y z a : (bv a < 128)%N -> utf8_4 x y a z = false.
Proof. intros H. unfold utf8_4. by rewrite (low_cont a). Qed.
Lemma low_4'' x y z a : (bv a < 128)%N -> utf8_4 x a y z = false.
Proof.
  intros H. unfold utf8_4. rewrite (low_cont a) by done. rewrite !(low_range _ a) by (done || lia).
  rewrite !andb_false_r. done.
Qed.
Lemma chars_app s a t : (bv a < 128)%N -> json_chars (s +++ String a t) = json_chars s +++ json_chars (String a t).
Proof.
  intros Ha. remember (slength s) as n eqn:Hn. assert (L : (slength s <= n)%nat) by lia. clear Hn. revert s L.
  induction n as [|n IH]; intros s L.
  { destruct s; [done|]. cbn [slength] in L. lia. }
  destruct s as [|x s]; [done|]. cbn [slength] in L. cbn [String.append]. set (r := String a t) in *.
  assert (E1 : json_chars (s +++ r) = json_chars s +++ json_chars r) by (apply IH; lia).
  cbn [json_chars]. destruct (bv x <? 128)%N; [by rewrite E1, sapp_assoc|].
  assert (R : u_escape 65533 +++ json_chars (s +++ r) = (u_escape 65533 +++ json_chars s) +++ json_chars r) by (by rewrite E1, sapp_assoc).
  destruct s as [|y s].
  { cbn [String.append]. change ("" +++ r) with r in *. subst r. cbn beta iota. rewrite low_2 by done. destruct t as [|b t]; [done|]. cbn beta iota. rewrite low_3' by done. destruct t as [|c t]; [done|]. cbn beta iota.
    rewrite low_4'' by done. done. }
  cbn [slength] in L. cbn [String.append] in *. destruct (utf8_2 x y); [by rewrite (IH s) by lia|].
  destruct s as [|z s].
  { change ("" +++ r) with r in *. subst r. cbn beta iota. rewrite low_3 by done. destruct t as [|b t]; [done|]. cbn beta iota. rewrite low_4' by done. done. }
  cbn [slength] in L. cbn [String.append] in *. destruct (utf8_3 x y z); [rewrite (IH s) by lia; by rewrite sapp_assoc|].
  destruct s as [|w s].
  { change ("" +++ r) with r in *. subst r. cbn beta iota. rewrite low_4 by done. done. }
  cbn [slength] in L. cbn [String.append] in *. destruct (utf8_4 x y z w); [by rewrite (IH s) by lia|]. done.
Qed.

(** ** Sizes *)
Section size.
Context (num : f64 -> string).
Local Notation wt := (wtext num).
Definition sum (l : list wjson) : nat := foldr (fun w n => (slength (wt w) + 1 + n)%nat) 0%nat l.
Lemma sum_app a b : sum (a ++ b) = (sum a + sum b)%nat.
Proof. induction a as [|x a IH]; [done|]. unfold sum in *. cbn [app foldr]. lia. Qed.
Lemma concat_length l : l <> [] -> (slength (String.concat "," (map wt l)) + 1 = sum l)%nat.
Proof.
  induction l as [|w l IH]; [done|]. intros _. destruct l as [|w' l].
  - unfold sum. cbn [map String.concat foldr]. lia.
  - cbn [map] in *. change (String.concat "," (wt w :: wt w' :: map wt l)) with (wt w +++ "," +++ String.concat "," (wt w' :: map wt l)).
    rewrite !slength_app. specialize (IH ltac:(done)). unfold sum in *. cbn [foldr] in *. cbn [slength] in *. lia.
Qed.
Lemma arr_length l : slength (wt (WArr l)) = match l with [] => 2%nat | _ => (sum l + 1)%nat end.
Proof.
  destruct l as [|w l]; [done|]. cbn [wtext]. rewrite !slength_app. pose proof (concat_length (w :: l) ltac:(done)) as H.
  cbn [slength]. lia.
Qed.
Lemma arr_full l : l <> [] -> slength (wt (WArr l)) = (sum l + 1)%nat.
Proof. rewrite arr_length. by destruct l. Qed.
Lemma z_length z : (1 <= slength (z_text z))%nat.
Proof.
  unfold z_text. destruct (z <? 0); [cbn [slength]; lia|]. destruct (dec_text_spec (Z.to_N z)) as (_ & H & _).
  destruct (dec_text (Z.to_N z)); [done|]. cbn [slength]. lia.
Qed.
Definition chars_length (s : string) : nat := slength (json_chars s).
Lemma text_op : json_string "op" = """op""". Proof. vm_compute. reflexivity. Qed.
Lemma text_replace : json_string "replace" = """replace""". Proof. vm_compute. reflexivity. Qed.
Lemma text_path : json_string "path" = """path""". Proof. vm_compute. reflexivity. Qed.
Lemma text_value : json_string "value" = """value""". Proof. vm_compute. reflexivity. Qed.
Lemma text_stamp : json_string "timestamp" = """timestamp""". Proof. vm_compute. reflexivity. Qed.
Lemma string_length s : slength (json_string s) = (chars_length s + 2)%nat.
Proof. unfold json_string, chars_length. cbn [slength]. rewrite slength_app. cbn [slength]. lia. Qed.
Lemma jpatch_length p : slength (wt (jpatch_written p)) = (34 + chars_length (jp_path p) + slength (wt (value_written (jp_value p))) + 1)%nat.
Proof.
  unfold jpatch_written. cbn [wtext map String.concat fst snd]. rewrite text_op, text_replace, text_path, text_value.
  rewrite !slength_app, string_length. cbn [slength]. lia.
Qed.
Lemma spatch_length p : slength (wt (spatch_written p)) =
  (34 + chars_length (sp_path p) + slength (wt (write_prim (sp_value p))) + 13 + slength (z_text (sp_ts p)) + 1)%nat.
Proof.
  unfold spatch_written. cbn [wtext map String.concat fst snd]. rewrite text_op, text_replace, text_path, text_value, text_stamp.
  rewrite !slength_app, string_length. cbn [slength]. lia.
Qed.

Definition jtexts (us : list upd) : list wjson := map jpatch_written (concat (map json_of us)).
Definition stexts (us : list upd) : list wjson := map spatch_written (map set_of us).
Lemma jtexts_cons u us : jtexts (u :: us) = map jpatch_written (json_of u) ++ jtexts us.
Proof. unfold jtexts. cbn [map concat]. by rewrite map_app. Qed.
Lemma set_length u : (slength (wt (spatch_written (set_of u))) + 1 =
  49 + chars_length (u_path u) + slength (wt (write_prim (u_value u))) + slength (z_text (u_time u)))%nat.
Proof. rewrite spatch_length. unfold set_of. cbn [sp_path sp_value sp_ts]. lia. Qed.
Lemma chars_stamp p : chars_length (p +++ "/timestamp") = (chars_length p + 10)%nat.
Proof. unfold chars_length. rewrite chars_app by done. rewrite slength_app. done. Qed.
Lemma chars_value p : chars_length (p +++ "/value") = (chars_length p + 6)%nat.
Proof. unfold chars_length. rewrite chars_app by done. rewrite slength_app. done. Qed.
Lemma json_length u : sum (map jpatch_written (json_of u)) =
  (46 + chars_length (u_path u) + slength (z_text (u_time u)) +
   (if u_changed u then 42 + chars_length (u_path u) + slength (wt (write_prim (u_value u))) else 0))%nat.
Proof.
  unfold json_of. cbn [map]. unfold sum. cbn [foldr]. rewrite jpatch_length. cbn [jp_path jp_value value_written]. rewrite chars_stamp. cbn [wtext].
  destruct (u_changed u); cbn [map foldr]; [|lia]. rewrite jpatch_length. cbn [jp_path jp_value value_written]. rewrite chars_value. lia.
Qed.
Lemma sums us : (sum (stexts (changed_only us)) + 39 * length us + 6 * (length us - length (changed_only us)) <= sum (jtexts us))%nat ∧
  (sum (stexts (changed_only us)) + 50 * (length us - length (changed_only us)) <= sum (stexts us))%nat ∧
  (length (changed_only us) <= length us)%nat.
Proof.
  induction us as [|u us (IH1 & IH2 & IH3)]; [repeat split; cbn; lia|]. rewrite jtexts_cons, sum_app, json_length. unfold changed_only in *. cbn [List.filter].
  pose proof (set_length u) as E. pose proof (z_length (u_time u)) as Z. unfold stexts, sum in *. destruct (u_changed u); cbn [map foldr length] in *; split_and!; lia.
Qed.
Lemma prim_marshals v : marshals (write_prim v) = finite v.
Proof. by destruct v. Qed.
Lemma sets_marshal us : forallb marshals (stexts us) = forallb (fun u => finite (u_value u)) us.
Proof.
  unfold stexts. induction us as [|u us IH]; [done|]. cbn [map forallb]. rewrite IH. f_equal. unfold spatch_written, set_of. cbn. rewrite prim_marshals. by rewrite !andb_true_r.
Qed.
Lemma json_marshal us : forallb marshals (jtexts us) = forallb (fun u => finite (u_value u)) (changed_only us).
Proof.
  unfold jtexts, changed_only. induction us as [|u us IH]; [done|]. cbn [map concat List.filter]. rewrite map_app, forallb_app, IH. unfold json_of.
  destruct (u_changed u); [|done]. cbn. rewrite prim_marshals. by rewrite !andb_true_r.
Qed.
End size.

(** ** The figures of a run *)
Section figures.
Context (num : f64 -> string) (w : world) (v : vehicle) (sc : option scenario_state) (sec inc : Z) (m : run_state).
Context (H : simulate w v sc sec inc = Ok m).
Lemma run_updates : exists us, m_jpatches m = concat (map json_of us) ∧ m_spatches m = map set_of us ∧ m_tpatches m = map set_of (changed_only us) ∧
  m_updates m = Z.of_nat (length us) ∧ m_changes m = Z.of_nat (length (changed_only us)) ∧ m_updates m = m_changes m + m_stamps m.
Proof.
  pose proof (counts _ _ _ _ _ _ H) as (C & _). pose proof H as (m0 & us & H0 & _ & [])%simulate_after.
  apply start_zero in H0 as (_ & _ & _ & J & T & S & U & Ch & Z & _). exists us. rewrite af_jp, af_tp, af_sp, J, T, S. cbn [app]. split_and!; try done.
  - rewrite af_updates, U. unfold count. lia.
  - rewrite af_changes, Ch. unfold count. lia.
Qed.
Lemma report_counts : let r := report_of num sec m in
  rp_updates r = rp_changes r + rp_stamps r ∧ rp_jcount r = rp_updates r + rp_changes r ∧ rp_tcount r = rp_changes r ∧ rp_scount r = rp_updates r ∧
  0 <= rp_changes r ∧ 0 <= rp_stamps r.
Proof.
  pose proof (counts _ _ _ _ _ _ H) as (C1 & C2 & C3 & C4 & _). pose proof run_updates as (us & _ & _ & _ & U & C & _). pose proof (sums num us) as (_ & _ & L).
  cbn. split_and!; lia.
Qed.
Lemma report_sizes : let r := report_of num sec m in
  (forall q, q ∈ m_spatches m -> finite (sp_value q) = true) ->
  2 <= rp_tsize r ∧ rp_tsize r + 39 * rp_updates r <= rp_jsize r ∧ rp_tsize r + 49 * rp_stamps r <= rp_ssize r.
Proof.
  intros r Hf. destruct run_updates as (us & J & S & T & U & C & D). unfold r, report_of. cbn. rewrite J, S, T.
  fold (jtexts us) (stexts us) (stexts (changed_only us)). unfold marshal_size. rewrite json_marshal, !sets_marshal.
  assert (F : forallb (fun u => finite (u_value u)) us = true).
  { apply forallb_forall. intros u Hu. apply (Hf (set_of u)). rewrite S. apply elem_of_list_fmap. exists u. split; [done|by apply elem_of_list_In]. }
  assert (F' : forallb (fun u => finite (u_value u)) (changed_only us) = true).
  { apply forallb_forall. intros u [Hu _]%List.filter_In. rewrite forallb_forall in F. by apply F. }
  rewrite F, F'. pose proof (sums num us) as (S1 & S2 & S3).
  destruct (decide (us = [])) as [-> |Hn]; [cbn in *; lia|].
  assert (L : (0 < length us)%nat) by (destruct us; [done|cbn; lia]).
  assert (N1 : jtexts us <> []) by (destruct us as [|u us']; [done|]; rewrite jtexts_cons; done).
  assert (N2 : stexts us <> []) by (destruct us; done).
  rewrite (arr_full num _ N1), (arr_full num _ N2). destruct (decide (changed_only us = [])) as [E|E].
  - rewrite E in *. cbn [length] in *. change (slength (wtext num (WArr (stexts [])))) with 2%nat. change (sum num (stexts [])) with 0%nat in *. lia.
  - assert (G : (1 <= sum num (stexts (changed_only us)))%nat) by (destruct (changed_only us); [done|unfold stexts, sum; cbn [map foldr]; lia]).
    rewrite arr_full; [lia|]. by destruct (changed_only us).
Qed.
Lemma report_unsized : let r := report_of num sec m in forall q, q ∈ m_tpatches m -> finite (sp_value q) = false ->
  rp_jsize r = 0 ∧ rp_tsize r = 0 ∧ rp_ssize r = 0.
Proof.
  intros r q Hq Hf. destruct run_updates as (us & J & S & T & U & C & D). unfold r, report_of. cbn. rewrite J, S, T.
  fold (jtexts us) (stexts us) (stexts (changed_only us)). unfold marshal_size. rewrite json_marshal, !sets_marshal.
  rewrite T in Hq. apply elem_of_list_fmap in Hq as (u & -> & Hu). apply elem_of_list_In in Hu. pose proof Hu as [Hu' _]%List.filter_In.
  assert (X : forall l, In u l -> forallb (fun u => finite (u_value u)) l = false).
  { intros l Hl. apply not_true_is_false. intros Ht. rewrite forallb_forall in Ht. specialize (Ht u Hl). cbn in Hf. congruence. }
  by rewrite !X.
Qed.
Lemma report_reduction : let r := report_of num sec m in 0 < rp_updates r < 2 ^ 52 ->
  fl_le (f64_of_Z 50) (rp_reduction r) ∧ fl_le (rp_reduction r) (f64_of_Z 100) ∧
  (rp_stamps r = 0 -> rp_reduction r = f64_of_Z 50) ∧ (rp_changes r = 0 -> rp_reduction r = f64_of_Z 100) ∧
  forall k, 0 <= k <= 100 ->
    (k * rp_jcount r <= 100 * (rp_jcount r - rp_tcount r) -> fl_le (f64_sub (f64_of_Z k) (dec 1 1000)) (rp_reduction r)) ∧
    (100 * (rp_jcount r - rp_tcount r) <= k * rp_jcount r -> fl_le (rp_reduction r) (f64_add (f64_of_Z k) (dec 1 1000))).
Proof.
  intros r Hu. destruct report_counts as (C1 & C2 & C3 & _ & C5 & C6). fold r in C1, C2, C3, C5, C6.
  assert (E : rp_reduction r = ReportFloat.saved (rp_changes r) (rp_updates r + rp_changes r)) by (rewrite <- C2, <- C3; done).
  rewrite E. destruct (ReportFloat.saved_range (rp_changes r) (rp_updates r) ltac:(lia) Hu) as [R1 R2]. split_and!; [done|done| | |].
  - intros Z. replace (rp_changes r) with (rp_updates r) by lia. by apply ReportFloat.saved_all.
  - intros Z. rewrite Z, Z.add_0_r. by apply ReportFloat.saved_none.
  - intros k Hk. destruct (ReportFloat.saved_near (rp_changes r) (rp_updates r) k ltac:(lia) Hu Hk) as [N1 N2]. rewrite C2, C3.
    split; intros L; [apply N1|apply N2]; lia.
Qed.
Lemma report_shares : let r := report_of num sec m in 0 < rp_updates r -> 100 * rp_updates r < 2 ^ 53 -> forall k, 0 <= k < 2 ^ 53 ->
  (k * rp_updates r <= 100 * rp_changes r -> fl_le (f64_of_Z k) (rp_changed r)) ∧ (100 * rp_changes r <= k * rp_updates r -> fl_le (rp_changed r) (f64_of_Z k)) ∧
  (k * rp_updates r <= 100 * rp_stamps r -> fl_le (f64_of_Z k) (rp_unchanged r)) ∧ (100 * rp_stamps r <= k * rp_updates r -> fl_le (rp_unchanged r) (f64_of_Z k)).
Proof.
  intros r Hu Hs k Hk. destruct report_counts as (C1 & _ & _ & _ & C5 & C6). fold r in C1, C5, C6.
  destruct (ReportFloat.share_near (rp_changes r) (rp_updates r) k ltac:(lia) Hu Hs Hk) as [A B].
  destruct (ReportFloat.share_near (rp_stamps r) (rp_updates r) k ltac:(lia) Hu Hs Hk) as [A' B']. exact (conj A (conj B (conj A' B'))).
Qed.
Lemma report_bands : let r := report_of num sec m in (forall q, q ∈ m_spatches m -> finite (sp_value q) = true) -> 0 < sec < 2 ^ 53 -> rp_jsize r < 2 ^ 53 ->
  fl_le (rp_tband r) (rp_jband r) ∧ forall k, 0 <= k < 2 ^ 43 ->
    (k * 1024 * sec <= rp_jsize r -> fl_le (f64_of_Z k) (rp_jband r)) ∧ (rp_jsize r <= k * 1024 * sec -> fl_le (rp_jband r) (f64_of_Z k)) ∧
    (k * 1024 * sec <= rp_tsize r -> fl_le (f64_of_Z k) (rp_tband r)) ∧ (rp_tsize r <= k * 1024 * sec -> fl_le (rp_tband r) (f64_of_Z k)).
Proof.
  intros r Hf Hs Hj. destruct (report_sizes Hf) as (S0 & S1 & _). fold r in S0, S1. destruct report_counts as (C1 & _ & _ & _ & C5 & C6). fold r in C1, C5, C6.
  split; [exact (proj2 (ReportFloat.band_le sec (rp_tsize r) (rp_jsize r) Hs ltac:(lia) Hj))|]. intros k Hk.
  destruct (ReportFloat.band_near sec (rp_jsize r) k (proj1 Hs) (proj2 Hs) ltac:(lia) Hk) as [A B].
  destruct (ReportFloat.band_near sec (rp_tsize r) k (proj1 Hs) (proj2 Hs) ltac:(lia) Hk) as [A' B']. exact (conj A (conj B (conj A' B'))).
Qed.
End figures.
Lemma report_fewer num w v sc sec inc m w' v' sc' sec' inc' m' : simulate w v sc sec inc = Ok m -> simulate w' v' sc' sec' inc' = Ok m' ->
  let r := report_of num sec m in let r' := report_of num sec' m' in
  rp_updates r = rp_updates r' -> 0 < rp_updates r < 2 ^ 52 -> rp_changes r <= rp_changes r' -> fl_le (rp_reduction r') (rp_reduction r).
Proof.
  intros H H' r r' E Hu L. destruct (report_counts num _ _ _ _ _ _ H) as (C1 & C2 & C3 & _ & C5 & C6).
  destruct (report_counts num _ _ _ _ _ _ H') as (D1 & D2 & D3 & _ & D5 & D6). fold r in C1, C2, C3, C5, C6. fold r' in D1, D2, D3, D5, D6.
  assert (F : rp_reduction r = ReportFloat.saved (rp_changes r) (rp_updates r + rp_changes r)) by (rewrite <- C2, <- C3; done).
  assert (F' : rp_reduction r' = ReportFloat.saved (rp_changes r') (rp_updates r + rp_changes r')) by (rewrite E, <- D2, <- D3; done).
  unfold fl_le. rewrite F, F'. apply ReportFloat.saved_le; lia.
Qed.
Lemma report_idle num w v sc sec inc m : simulate w v sc sec inc = Ok m -> let r := report_of num sec m in rp_updates r = 0 ->
  rp_reduction r = S754_nan ∧ rp_changed r = S754_nan ∧ rp_unchanged r = S754_nan.
Proof.
  intros H r Z. destruct (report_counts num _ _ _ _ _ _ H) as (C1 & C2 & C3 & _ & C5 & C6). fold r in C1, C2, C3, C5, C6.
  assert (Ec : rp_changes r = 0) by lia. assert (Es : rp_stamps r = 0) by lia.
  assert (E1 : rp_reduction r = reduction (rp_tcount r) (rp_jcount r)) by done.
  assert (E2 : rp_changed r = percentage (rp_changes r) (rp_updates r)) by done.
  assert (E3 : rp_unchanged r = percentage (rp_stamps r) (rp_updates r)) by done.
  rewrite E1, E2, E3, C2, C3, Ec, Es, Z. done.
Qed.

(** ** The rows *)
Lemma rows_zip (m : run_state) : length (m_jcounts m) = length (m_times m) -> length (m_tcounts m) = length (m_times m) ->
  exists rows, cumulative_rows m = Ok rows ∧ map (fun x => fst (fst x)) rows = m_times m ∧ map (fun x => snd (fst x)) rows = m_jcounts m ∧ map snd rows = m_tcounts m.
Proof.
  unfold cumulative_rows. generalize (m_jcounts m) as js, (m_tcounts m) as cs. generalize (m_times m) as ts.
  induction ts as [|t ts IH]; intros [|j js] [|c cs] H1 H2; try done.
  - by exists [].
  - cbn [length] in *. destruct (IH js cs) as (rows & E & A & B & C); [lia..|]. rewrite E. cbn [rbind]. eexists. split; [done|]. cbn. by rewrite A, B, C.
Qed.
Lemma row_list w v sc sec inc m : simulate w v sc sec inc = Ok m -> orders_ok w -> NoDup (akeys (sensors v)) -> 0 < inc ->
  exists rows, cumulative_rows m = Ok rows ∧ map (fun x => fst (fst x)) rows = m_times m ∧ map (fun x => snd (fst x)) rows = m_jcounts m ∧ map snd rows = m_tcounts m.
Proof.
  intros H Ho Hn Hi. destruct (SimFinal.cumulative _ _ _ _ _ _ H Ho Hn Hi) as (_ & _ & T & J). apply rows_zip; [rewrite J|rewrite T]; by rewrite map_length.
Qed.

(** ** The experiments of the program *)
Lemma experiment_finite w ord now d sc m : experiment w ord now d sc = Ok m -> orders_ok w -> Permutation (ord vss_sensors) vss_sensors ->
  random_ok w -> fair d -> sine (w_sin w) -> forall q, q ∈ m_spatches m -> finite (sp_value q) = true.
Proof.
  intros H Ho P R F Sn q Hq. destruct (SimQuiet.experiment_plain _ _ _ _ _ _ Ho P H) as (_ & v & Hv & _ & _ & Sh & _).
  pose proof (SimExp.shape_separate v Sh) as [Hnd _].
  destruct (SimFinal.update_times _ _ _ _ _ _ Hv Ho Hnd eq_refl) as (_ & Hp & _). specialize (Hp q Hq).
  rewrite (urban_keys v Sh) in Hp. apply elem_of_list_fmap in Hp as ([p e] & Ep & He). cbn [fst] in Ep.
  pose proof (table_values w ord now d sc m p e H Ho P R F Sn He q Hq Ep) as Ht.
  pose proof bounds_checked as C. rewrite forallb_forall in C. specialize (C (p, e) (proj1 (elem_of_list_In _ _) He)). cbn [snd] in C.
  apply andb_true_iff in C as [C1 C2]. destruct (vs_default e).
  - by rewrite Ht.
  - destruct Ht as (x & -> & Lo & Hi). cbn. by apply (bounded_finite (vs_min e) (vs_max e)).
  - by destruct Ht as [y ->].
Qed.
Lemma experiment_simulated w ord now d sc m : experiment w ord now d sc = Ok m -> exists v s, simulate w v s simulation_sec simulation_step = Ok m.
Proof.
  unfold experiment. destruct (init_vehicle _ _ _ _) as [v| |]; cbn [rbind]; [|done|done]. destruct (decide _); intros H; eauto.
Qed.
Lemma experiment_report num w ord now d sc m : experiment w ord now d sc = Ok m -> orders_ok w -> Permutation (ord vss_sensors) vss_sensors ->
  random_ok w -> fair d -> sine (w_sin w) -> let r := report_of num simulation_sec m in
  rp_updates r = 34082 ∧ rp_jcount r = 34082 + rp_tcount r ∧ rp_scount r = 34082 ∧
  2 <= rp_tsize r ∧ rp_tsize r + 1329198 <= rp_jsize r ∧ rp_tsize r <= rp_ssize r ∧
  fl_le (f64_of_Z 50) (rp_reduction r) ∧ fl_le (rp_reduction r) (f64_of_Z 100) ∧
  (rp_jsize r < 2 ^ 53 -> fl_le (rp_tband r) (rp_jband r)).
Proof.
  intros H Ho P R F Sn r. pose proof (experiment_finite _ _ _ _ _ _ H Ho P R F Sn) as Hf. destruct (experiment_simulated _ _ _ _ _ _ H) as (v & s & Hv).
  assert (U : rp_updates r = 34082).
  { destruct (SimExp.experiment_total w ord now d sc Ho P) as (v' & m' & _ & _ & _ & E & U). rewrite H in E. injection E as <-. exact U. }
  destruct (report_counts num _ _ _ _ _ _ Hv) as (C1 & C2 & C3 & C4 & C5 & C6). destruct (report_sizes num _ _ _ _ _ _ Hv Hf) as (S0 & S1 & S2).
  destruct (report_reduction num _ _ _ _ _ _ Hv) as (R1 & R2 & _); [fold r; rewrite U; done|].
  fold r in C1, C2, C3, C4, C5, C6, S0, S1, S2, R1, R2. rewrite U in *. split_and!; try done; try lia.
  intros Hj. exact (proj1 (report_bands num _ _ _ _ _ _ Hv Hf (conj eq_refl eq_refl) Hj)).
Qed.
