(** When the log of an experiment can be made. *)
From Verif Require Import Base BaseSpec F64 Tson TsonInd TsonSpec TextSpec BaseLemmas TsonLemmas ConvLemmas Heap HeapSpec Own Patch PatchSpec TreePatch PatchLemmas Serial Logument LogSpec Json
  Tjson TjsonSpec Initial InitialSpec Query QuerySpec QueryLemmas.

Lemma creates T file us h : json_encodable (transform file) = true ->
  match create_logument T file us h with
  | (_, Ok L) => jcontainer (transform file) ∧ jnull_free (transform file) = true ∧
      l_version L = [0%N] ∧ l_patches L = ∅ ∧ l_pool L = Some (map operation_of us)
  | (_, Err) => False
  | (h', Panic) => h' = h ∧ (jcontainer (transform file) -> jnull_free (transform file) = false)
  end.
Proof.
  intros He. unfold create_logument.
  assert (HD : jcontainer (transform file) ∨ ~ jcontainer (transform file)).
  { destruct (transform file); try (right; intros [[? ?]|[? ?]]; discriminate); left; [right|left]; by eexists. }
  destruct HD as [HC|HC].
  - destruct (jnull_free (transform file)) eqn:En.
    + rewrite from_json_spec by done. rewrite En.
      destruct (alloc_tree h _) as [h' v] eqn:Ea. pose proof (alloc_tree_doc _ _ _ _ Ea) as HD.
      assert (Hv : v <> VNil).
      { intros ->. destruct HD as (lt & _ & Hr & Hl). destruct lt; try done. cbn in Hl.
        destruct HC as [[m E]|[l E]]; rewrite E in Hl; done. }
      destruct v; [done|..]; done.
    + by rewrite from_json_spec, En.
  - rewrite from_json_scalar by done. split; [done|]. intros H. by destruct (HC H).
Qed.
