(** * Property theorems: layers of an opened index in Python (C67) *)
From Verif Require Import Base BaseFacts Bytes MSliceVec MOffsets MSetVec MIndexIo SIndexIo PIndexIo MSearch MPyIndex SPyIndex.

(** What [same_index] in C67 and C70 says of the Python objects: the number of
    layers and the length of each layer are those of the builder, beyond the last
    layer both raise an error, and every node has the same neighbours, with the
    layer given or left out. *)
Theorem C67_same_layers :
  forall p q, same_index Release (pb_layers p) (pi_layers q) ->
    pi_num_layers q = pb_num_layers p /\ pi_len q = pb_len p /\
    (forall layer, pi_layer_len q layer = pb_layer_len p layer) /\
    (forall layer, layer < pb_num_layers p -> exists len, pb_layer_len p layer = Ok len) /\
    (forall layer, pb_num_layers p <= layer -> pb_layer_len p layer = Fail Panicked) /\
    (forall layer idx len, pb_layer_len p layer = Ok len -> idx < len ->
       exists ns ns', pb_get_neighbors Release p idx (Some layer) = Ok ns /\
         pi_get_neighbors Release q idx (Some layer) = Ok ns' /\ Permutation ns ns') /\
    (forall idx len, pb_len p = Ok len -> idx < len ->
       exists ns ns', pb_get_neighbors Release p idx None = Ok ns /\
         pi_get_neighbors Release q idx None = Ok ns' /\ Permutation ns ns').
Proof.
  intros p q (G & HS & HS'). unfold pi_num_layers, pb_num_layers, pi_len, pb_len, pi_layer_len, pb_layer_len, pb_get_neighbors, pi_get_neighbors, neighbors_in.
  generalize dependent (pb_layers p). generalize dependent (pi_layers q). intros L' HS' L HS.
  assert (Hout : forall L0, index_shows Release L0 G -> forall i, length G <= i -> layer_len L0 i = Fail Panicked).
  { intros L0 [H0 _] i Hi. rewrite <- H0 in Hi. unfold layer_len, layers_len, index in *. destruct L0 as [ls|ls]; rewrite (proj2 (nth_error_None ls i)) by lia; reflexivity. }
  assert (Hll : forall i, layer_len L' i = layer_len L i).
  { intros i. destruct (nth_error G i) as [g|] eqn:E.
    - destruct (proj2 HS i g E) as [-> _]. destruct (proj2 HS' i g E) as [-> _]. reflexivity.
    - apply nth_error_None in E. rewrite (Hout _ HS), (Hout _ HS') by assumption. reflexivity. }
  assert (Hnb : forall layer idx len, layer_len L layer = Ok len -> idx < len ->
       exists ns ns', get_neighbors Release L idx layer = Ok ns /\ get_neighbors Release L' idx layer = Ok ns' /\ Permutation ns ns').
  { intros layer idx len Hlen Hidx. destruct (nth_error G layer) as [g|] eqn:E.
    - destruct (proj2 HS layer g E) as [E1 H1]. destruct (proj2 HS' layer g E) as [_ H2].
      assert (len = length g) by congruence. subst len. destruct (nth_error g idx) as [ns|] eqn:En; [|apply nth_error_None in En; lia].
      destruct (H1 _ _ En) as (ns1 & Ens1 & P1). destruct (H2 _ _ En) as (ns2 & Ens2 & P2). exists ns1, ns2. split; [exact Ens1|]. split; [exact Ens2|].
      now rewrite P1, P2.
    - apply nth_error_None in E. rewrite (Hout _ HS) in Hlen by assumption. discriminate. }
  rewrite (proj1 HS), (proj1 HS'). split; [reflexivity|]. split.
  { unfold index_len. rewrite (proj1 HS), (proj1 HS'). destruct (0 <? length G); auto. }
  split; [exact Hll|]. split.
  { intros i Hi. destruct (nth_error G i) as [g|] eqn:E; [|apply nth_error_None in E; lia]. exists (length g). apply (proj2 HS i g E). }
  split; [exact (Hout _ HS)|]. split; [exact Hnb|].
  intros idx len Hlen Hidx. unfold index_len in Hlen. rewrite (proj1 HS) in Hlen.
  destruct (0 <? length G); [|exfalso; assert (len = 0) by congruence; lia]. cbn [obind]. exact (Hnb _ _ _ Hlen Hidx).
Qed.
Print Assumptions C67_same_layers.
