(** [FromJson] on data with a number that has no JSON text. *)
From Verif Require Import Base F64 Tson TsonInd.

Lemma leaf_encodable p : json_encodable (json_of_leaf p default_timestamp) = prim_encodable p.
Proof. destruct p; cbn; rewrite ?andb_true_r; done. Qed.
Lemma stamped_encodable j : json_encodable (add_timestamp j) = json_encodable j.
Proof.
  induction j as [|x|x|x|l IH|m IH] using json_ind'; try done; cbn [add_timestamp json_encodable].
  - induction IH as [|x l Hx _ IHl]; [done|]. cbn [map forallb]. rewrite IHl. f_equal. destruct x; rewrite ?leaf_encodable; done.
  - induction IH as [|[k x] m Hx _ IHm]; [done|]. cbn [map forallb fst snd] in *. rewrite IHm. f_equal. destruct x; rewrite ?leaf_encodable; done.
Qed.
Lemma from_json_number j : json_encodable j = false -> snd (from_json j) = Err.
Proof. intros H. unfold from_json. cbn [snd]. by rewrite stamped_encodable, H. Qed.
