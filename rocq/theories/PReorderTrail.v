(** * Proofs: what the order computed by [reorder] sorts by *)
From Verif Require Import Base BaseFacts Bytes MSliceVec SSliceVec MOffsets MSetVec SOffsets MIndexIo SIndexIo PIndexIo MSearch SSearch PHeap PSearch PSearchIx MBuild MReorder SReorder PReorder PReorderOrder SReorderTrail.
Set Implicit Arguments. Unset Strict Implicit.

(** ** Searching one layer *)
Lemma s_loop_ext f nbrs nbrs' dist : (forall j, nbrs j = nbrs' j) -> forall st, s_loop f nbrs dist st = s_loop f nbrs' dist st.
Proof.
  intros H. induction f as [|f IH]; intros st; cbn [s_loop]; [reflexivity|].
  destruct (s_pop st) as [[[k st']|]|]; cbn [obind]; auto. rewrite H. destruct (nbrs' (snd k)) as [row|]; cbn [obind]; auto.
  destruct (s_expand dist st' k row); cbn [obind]; auto.
Qed.
Lemma sfn_ext f nbrs nbrs' dist ep ms : (forall j, nbrs j = nbrs' j) -> search_for_neighbors f nbrs dist ep ms = search_for_neighbors f nbrs' dist ep ms.
Proof.
  intros H. unfold search_for_neighbors. destruct (s_init dist ep ms); cbn [obind]; auto. now rewrite (s_loop_ext f dist H).
Qed.
Lemma first_skipn {A} (l : list A) i x : nth_error l i = Some x -> firstn 1 (skipn i l) = [x].
Proof.
  revert i. induction l as [|y l IH]; intros [|i] H; try discriminate; cbn [nth_error] in H.
  - injection H as ->. reflexivity.
  - cbn [skipn]. auto.
Qed.
Lemma only_layer_len L i : i < layers_len L -> layers_len (only_layer L i) = 1.
Proof.
  destruct L as [ls|ls]; cbn [layers_len only_layer]; intros H; destruct (nth_error ls i) as [x|] eqn:E;
    try (apply nth_error_None in E; lia); now rewrite (first_skipn E).
Qed.
Lemma only_layer_nb m L i j : i < layers_len L -> get_neighbors m (only_layer L i) j 0 = get_neighbors m L j i.
Proof.
  destruct L as [ls|ls]; cbn [layers_len only_layer get_neighbors]; intros H; destruct (nth_error ls i) as [x|] eqn:E;
    try (apply nth_error_None in E; lia); rewrite (first_skipn E), (proj2 (index_ok ls i x) E); reflexivity.
Qed.
Lemma only_layer_search m fuel L dist i ms nn : i < layers_len L ->
  granne_search m fuel (only_layer L i) dist ms nn =
    (let* res := search_for_neighbors fuel (fun j => get_neighbors m L j i) dist 0 ms in Ok (firstn nn res)).
Proof.
  intros H. unfold granne_search, search_internal, graphs_of. rewrite (only_layer_len H). cbn [seq map split_last length Nat.sub nth_error removelast find_entrypoint ofold obind].
  now rewrite (@sfn_ext fuel _ (fun j => get_neighbors m L j i) dist 0 ms (fun j => only_layer_nb m j H)).
Qed.

Lemma nth_map_seq0 {A} (h : nat -> A) n i d : i < n -> nth i (map h (seq 0 n)) d = h i.
Proof.
  intros Hi. rewrite (nth_indep _ d (h 0)) by (rewrite map_length, seq_length; exact Hi). rewrite map_nth. now rewrite seq_nth.
Qed.

(** ** Trails *)
Section Trail.
  Variables (m : mode) (L : layers) (G : list (list (list N))) (dist : nat -> outcome Z) (f : nat -> Z) (fuel : nat).
  Hypothesis HS : index_shows m L G.
  Hypothesis HG : graph_ok G.
  Hypothesis Hd : dist_is dist f (length (last G [])).
  Hypothesis Hfuel : length (last G []) < fuel.
  Hypothesis Hn : (N.of_nat (length (last G [])) <= 4294967296)%N.

  Definition mark (i : nat) : nat :=
    match search_for_neighbors fuel (fun j => get_neighbors m L j i) dist 0 1 with Ok (r :: _) => fst r | _ => 0 end.

  Lemma mark_ok i : i < length G -> exists d, search_for_neighbors fuel (fun j => get_neighbors m L j i) dist 0 1 = Ok [(mark i, d)] /\
    mark i < length (nth i G []) /\ landmark m fuel L dist i (mark i).
  Proof.
    intros Hi. assert (Hkg : nth_error G i = Some (nth i G [])) by (apply nth_error_nth'; lia).
    assert (Hpos : 0 < length (nth i G [])) by (apply layer_pos; auto).
    destruct (@PSearchIx.layer_search m L G dist f fuel HS HG Hd Hfuel i _ 0 1 Hkg Hpos) as (l & El & HFin); [lia|].
    destruct HFin as (F1 & F2 & F3 & F4 & F5 & F6 & r & F7 & F8).
    destruct l as [|a [|b l]]; [destruct F7| |cbn [length] in F3; lia]. cbn [map] in El.
    assert (Em : mark i = snd a) by (unfold mark; rewrite El; reflexivity).
    destruct (F4 a (or_introl eq_refl)) as (_ & Ha & _).
    exists (fst a). rewrite Em. split; [exact El|]. split; [exact Ha|]. exists (fst a). rewrite only_layer_search by (rewrite (proj1 HS); exact Hi).
    rewrite El. reflexivity.
  Qed.

  Lemma trail_is layer : 0 < layer -> layer < length G ->
    find_entrypoint_trail fuel (graphs_of m L) dist layer = Ok (map (fun i => if i <? layer then N.of_nat (mark i) else 0%N) (seq 0 8)).
  Proof.
    intros H1 H2. unfold find_entrypoint_trail.
    assert (Hg : length (graphs_of m L) = length G) by (unfold graphs_of; rewrite map_length, seq_length; apply (proj1 HS)).
    rewrite Hg.
    assert (H : forall k, k <= layer -> k <= 8 ->
      ofold (tstep m L dist fuel) (seq 0 k) (repeat 0%N NUM_LAYERS) = Ok (map (fun i => if i <? k then N.of_nat (mark i) else 0%N) (seq 0 8))).
    { induction k as [|k IH]; intros Hk Hk8; [reflexivity|]. rewrite seq_S, ofold_app, IH by lia. cbn [obind ofold Nat.add].
      set (t := map _ (seq 0 8)). assert (Ht : length t = 8) by (unfold t; rewrite map_length, seq_length; reflexivity).
      assert (Hnt : forall i, i < 8 -> nth i t 0%N = if i <? k then N.of_nat (mark i) else 0%N).
      { intros i Hi. unfold t. now rewrite nth_map_seq0. }
      unfold tstep at 1. rewrite (@graphs_index m L G HS) by lia. cbn [obind].
      assert (Eep : (if k =? 0 then Ok 0 else let* e := index t k in Ok (N.to_nat e)) = Ok 0).
      { destruct (k =? 0); auto. rewrite (index_nth t 0%N) by lia. cbn [obind]. rewrite Hnt by lia. now rewrite Nat.ltb_irrefl. }
      rewrite Eep. cbn [obind]. destruct (@mark_ok k) as (d & Es & Hm & _); [lia|]. rewrite Es. cbn [obind index nth_error ounwrap fst].
      assert (Hkn : length (nth k G []) <= length (last G [])) by (rewrite last_is_nth; apply layer_lens_mono; auto; lia).
      unfold to_id. replace (N.of_nat (mark k) <? 4294967296)%N with true by (symmetry; apply N.ltb_lt; lia).
      cbn [obind]. assert (Hkt : k < length t) by lia. rewrite (proj2 (store_ok t k _ _) (conj Hkt eq_refl)). cbn [obind]. f_equal.
      apply nth_ext with (d := 0%N) (d' := 0%N); [rewrite set_nth_length, map_length, seq_length; exact Ht|].
      intros i Hi. rewrite set_nth_length, Ht in Hi. rewrite nth_set_nth by lia.
      rewrite nth_map_seq0 by exact Hi. rewrite Hnt by exact Hi.
      destruct (Nat.eqb_spec k i) as [->|Hne].
      - replace (i <? S i) with true by (symmetry; apply Nat.ltb_lt; lia). reflexivity.
      - destruct (Nat.ltb_spec i k), (Nat.ltb_spec i (S k)); try lia; reflexivity. }
    unfold tstep in H. rewrite H by (unfold NUM_LAYERS; lia). f_equal. apply map_ext_in. intros i Hi. apply in_seq in Hi. unfold NUM_LAYERS.
    destruct (Nat.ltb_spec i layer), (Nat.ltb_spec i (Nat.min (Nat.min 8 layer) (length G))); try lia; reflexivity.
  Qed.
End Trail.

(** ** Lexicographic order *)
Lemma lex_total a : forall b, lex_le a b = true \/ lex_le b a = true.
Proof.
  induction a as [|x a IH]; intros [|y b]; cbn [lex_le]; auto.
  destruct (N.eqb_spec x y) as [->|Hn]; [rewrite N.eqb_refl; apply IH|]. destruct (N.eqb_spec y x); [congruence|].
  destruct (N.ltb_spec x y); [now left|right]. apply N.ltb_lt. lia.
Qed.
Lemma lex_trans a : forall b c, lex_le a b = true -> lex_le b c = true -> lex_le a c = true.
Proof.
  induction a as [|x a IH]; intros [|y b] [|z c]; cbn [lex_le]; auto; try discriminate.
  destruct (N.eqb_spec x y) as [->|Hn].
  - destruct (N.eqb_spec y z); [apply IH|auto].
  - intros H1 H2. apply N.ltb_lt in H1. destruct (N.eqb_spec y z) as [->|Hz].
    + destruct (N.eqb_spec x z); [congruence|]. now apply N.ltb_lt.
    + apply N.ltb_lt in H2. destruct (N.eqb_spec x z); [lia|]. apply N.ltb_lt. lia.
Qed.
Lemma lex_precedes a : forall b z, length a = length b -> lex_le (map N.of_nat a ++ z) (map N.of_nat b ++ z) = true -> a = b \/ precedes a b.
Proof.
  induction a as [|x a IH]; intros [|y b] z Hl H; try discriminate; [now left|]. cbn [map app lex_le] in H. cbn [length] in Hl.
  destruct (N.eqb_spec (N.of_nat x) (N.of_nat y)) as [E|E].
  - assert (x = y) by lia. subst y. destruct (IH b z ltac:(lia) H) as [->|(k & Hk & Hf & Hlt)]; [now left|]. right. exists (S k).
    cbn [length firstn nth]. split; [lia|]. split; [congruence|exact Hlt].
  - right. exists 0. cbn [length firstn nth]. split; [lia|]. split; [reflexivity|]. apply N.ltb_lt in H. lia.
Qed.

(** ** The order *)
Section Order.
  Context {S E : Type} (C : cops S E) (s : S).
  Variables (m : mode) (L : layers) (G : list (list (list N))) (fuel : nat).
  Hypothesis HS : index_shows m L G.
  Hypothesis HG : graph_ok G.
  Hypothesis Hn : (N.of_nat (length (last G [])) <= 4294967296)%N.
  Hypothesis Hfuel : length (last G []) < fuel.
  Hypothesis Hel : has_elements C s (length (last G [])).
  Local Notation first := (length (nth 0 G [])).
  Local Notation len k := (length (nth k G [])).

  (** [inv] knows the places of the first [n] ids *)
  Definition knows (p inv : list nat) (n : nat) : Prop := forall t, t < n -> new_place p first t (nth t inv 0).

  Definition marks (x i : nat) : nat := match c_get C s x with Ok e => mark m L (fun j => c_dte C s j e) fuel i | Fail _ => 0 end.
  Definition skey (inv : list nat) (layer x : nat) : list N :=
    map N.of_nat (map (fun i => nth (marks x i) inv 0) (seq 0 (Nat.min 8 layer))) ++ repeat 0%N (8 - layer).

  Lemma eps_is p layer inv b e : 0 < layer -> layer < length G -> e <= length (last G []) -> len (layer - 1) <= length inv ->
    length p <= length (last G []) ->
    knows p inv (len (layer - 1)) ->
    omapM (fun idx =>
            let* e := c_get C s idx in
            let* t := find_entrypoint_trail fuel (graphs_of m L) (fun i => c_dte C s i e) layer in
            let* t' := omapM (fun i => let* x := index inv (N.to_nat i) in
                                       Ok (N.of_nat x mod 4294967296)%N) t in
            Ok (t', idx)) (seq b (e - b)) = Ok (map (fun x => (skey inv layer x, x)) (seq b (e - b))) /\
    forall x, x < length (last G []) -> trail C m fuel L s p first layer x (map (fun i => nth (marks x i) inv 0) (seq 0 (Nat.min 8 layer))).
  Proof.
    intros H1 H2 He Hinv Hpl Hkn.
    assert (Hdist : forall x ex, x < length (last G []) -> c_get C s x = Ok ex ->
      exists f, dist_is (fun i => c_dte C s i ex) f (length (last G []))).
    { intros x ex Hx Ex. destruct (Hel Hx) as (e' & Ee & Hde). assert (e' = ex) by congruence. subst e'.
      exists (fun i => match c_dte C s i ex with Ok d => d | Fail _ => 0%Z end). intros i Hi. destruct (Hde i Hi) as (d & ->). reflexivity. }
    assert (Hfz : forall n, n < len (layer - 1) -> (N.of_nat (nth n inv 0%nat) < 4294967296)%N).
    { intros n Hlt. destruct (Hkn n Hlt) as [A B]. destruct (Nat.lt_ge_cases n first) as [Hf|Hf]; [rewrite (A Hf); lia|].
      destruct (B Hf) as [B1 _]. lia. }
    split.
    - apply omapM_pure. intros x Hx. apply in_seq in Hx. assert (Hxl : x < length (last G [])) by lia.
      destruct (Hel Hxl) as (ex & Ex & _). rewrite Ex. cbn [obind]. destruct (Hdist x ex Hxl Ex) as (f & Hf).
      rewrite (@trail_is m L G _ f fuel HS HG Hf Hfuel Hn layer H1 H2). cbn [obind].
      assert (Hmk : forall i, i < layer -> mark m L (fun j => c_dte C s j ex) fuel i < len (layer - 1)).
      { intros i Hi. destruct (@mark_ok m L G _ f fuel HS HG Hf Hfuel Hn i) as (_ & _ & Hm & _); [lia|].
        eapply Nat.lt_le_trans; [exact Hm|]. apply layer_lens_mono; auto; lia. }
      assert (H0 : 0 < len (layer - 1)) by (apply layer_pos; auto; lia).
      rewrite (@omapM_pure _ _ _ (fun i => N.of_nat (nth (N.to_nat i) inv 0))).
      2:{ intros t Ht. apply in_map_iff in Ht as (i & <- & Hi). apply in_seq in Hi.
          assert (Hlt : N.to_nat (if i <? layer then N.of_nat (mark m L (fun j => c_dte C s j ex) fuel i) else 0%N) < len (layer - 1)).
          { destruct (Nat.ltb_spec i layer); [rewrite Nat2N.id; auto|exact H0]. }
          rewrite (index_nth inv 0) by lia. cbn [obind]. f_equal. apply N.mod_small. now apply Hfz. }
      cbn [obind]. f_equal. f_equal. rewrite map_map. unfold skey. rewrite map_map.
      assert (Hsp : seq 0 8 = seq 0 (Nat.min 8 layer) ++ seq (Nat.min 8 layer) (8 - layer)).
      { change (seq (Nat.min 8 layer) (8 - layer)) with (seq (0 + Nat.min 8 layer) (8 - layer)). rewrite <- seq_app. f_equal. lia. }
      rewrite Hsp, map_app. f_equal.
      + apply map_ext_in. intros i Hi. apply in_seq in Hi. replace (i <? layer) with true by (symmetry; apply Nat.ltb_lt; lia).
        rewrite Nat2N.id. unfold marks. now rewrite Ex.
      + assert (Hr : forall n b, layer <= b -> map (fun i => N.of_nat (nth (N.to_nat (if i <? layer then N.of_nat (mark m L (fun j => c_dte C s j ex) fuel i) else 0%N)) inv 0)) (seq b n) = repeat 0%N n).
        { induction n as [|n IH]; intros b' Hb; [reflexivity|]. cbn [seq map repeat]. f_equal; [|apply IH; lia].
          replace (b' <? layer) with false by (symmetry; apply Nat.ltb_ge; lia). change (N.to_nat 0) with 0.
          destruct (Hkn 0 H0) as [A _]. rewrite A; [reflexivity|]. apply layer_pos; auto; lia. }
        destruct (Nat.le_gt_cases 8 layer) as [Hb|Hb]; [replace (8 - layer) with 0 by lia; reflexivity|apply Hr; lia].
    - intros x Hx. split; [rewrite map_length; apply seq_length|]. destruct (Hel Hx) as (ex & Ex & _). exists ex. split; [exact Ex|].
      intros i Hi. destruct (Hdist x ex Hx Ex) as (f & Hf).
      destruct (@mark_ok m L G _ f fuel HS HG Hf Hfuel Hn i) as (_ & _ & Hm & HL); [lia|]. eexists. split; [exact HL|].
      rewrite nth_map_seq0 by exact Hi. unfold marks. rewrite Ex. apply Hkn. eapply Nat.lt_le_trans; [exact Hm|]. apply layer_lens_mono; auto; lia.
  Qed.

  (** places do not change when an order is extended *)
  Lemma place_app p q t a : is_perm (length p) p -> t < length p -> new_place p first t a -> new_place (p ++ q) first t a.
  Proof.
    intros HP Ht [A B]. split; [exact A|]. intros Hf. destruct (B Hf) as [B1 B2]. rewrite app_length, app_nth1 by exact B1. split; [lia|exact B2].
  Qed.
  Lemma trail_app p q layer x a : is_perm (len (layer - 1)) p -> 0 < layer -> layer < length G -> x < length (last G []) ->
    trail C m fuel L s p first layer x a -> trail C m fuel L s (p ++ q) first layer x a.
  Proof.
    intros HP H0 Hl Hx [A (e & Ee & B)]. split; [exact A|]. exists e. split; [exact Ee|]. intros i Hi. destruct (B i Hi) as (y & Hy & Hpl). exists y. split; [exact Hy|].
    pose proof (is_perm_length HP) as HL. apply place_app; [rewrite HL; exact HP| |exact Hpl]. rewrite HL.
    destruct (Hel Hx) as (e' & Ee' & Hde). assert (e' = e) by congruence. subst e'.
    destruct (@mark_ok m L G (fun j => c_dte C s j e) (fun i => match c_dte C s i e with Ok d => d | Fail _ => 0%Z end) fuel HS HG) with (i := i) as (_ & _ & Hm & (d1 & HL1)); auto; [|lia|].
    { intros j Hj. destruct (Hde j Hj) as (d & ->). reflexivity. }
    destruct Hy as (d2 & Hy). rewrite HL1 in Hy. injection Hy as <- _. eapply Nat.lt_le_trans; [exact Hm|]. apply layer_lens_mono; auto; lia.
  Qed.

  (** filling in the places of one layer *)
  Lemma inv_places order inv b e : is_perm e order -> firstn b order = firstn b order -> is_perm b (firstn b order) -> b <= e -> e <= length inv -> first <= b ->
    knows (firstn b order) inv b ->
    exists inv', ofold (fun inv i => let* o := index order i in store inv o i) (seq b (e - b)) inv = Ok inv' /\ length inv' = length inv /\ knows order inv' e.
  Proof.
    intros HP _ HPb Hbe Hle Hfb Hkn. destruct (@perm_seq_nth e order HP) as (HL & Hlt & Hinj & Hsur).
    assert (Hb : forall i, i < b -> nth i order 0 < b).
    { intros i Hi. destruct (@perm_seq_nth b _ HPb) as (_ & H & _). rewrite <- (nth_firstn_lt order (k := b) 0 Hi). auto. }
    assert (Hge : forall i, b <= i < e -> b <= nth i order 0).
    { intros i Hi. destruct (Nat.lt_ge_cases (nth i order 0) b) as [Hx|]; [|assumption]. exfalso.
      destruct (@perm_seq_nth b _ HPb) as (_ & _ & _ & Hs). destruct (Hs _ Hx) as (j & Hj & Ej). rewrite (nth_firstn_lt order (k := b) 0 Hj) in Ej.
      assert (i = j) by (apply Hinj; auto; lia). lia. }
    assert (H : forall k, b + k <= e -> exists inv', ofold (fun inv i => let* o := index order i in store inv o i) (seq b k) inv = Ok inv' /\ length inv' = length inv /\
      (forall t, t < b -> nth t inv' 0 = nth t inv 0) /\ (forall i, b <= i < b + k -> nth (nth i order 0) inv' 0 = i)).
    { induction k as [|k IH]; intros Hk; [exists inv; cbn; repeat split; auto; lia|].
      destruct IH as (v & Ev & Hv & H1 & H2); [lia|]. rewrite seq_S, ofold_app, Ev. cbn [obind ofold].
      rewrite (index_nth order 0) by lia. cbn [obind]. assert (Ho : nth (b + k) order 0 < length v) by (specialize (Hlt (b + k) ltac:(lia)); lia).
      rewrite (proj2 (store_ok v (nth (b + k) order 0) (b + k) _) (conj Ho eq_refl)). eexists. split; [reflexivity|]. rewrite set_nth_length. split; [exact Hv|]. split.
      - intros t Ht. rewrite nth_set_nth by lia. destruct (Nat.eqb_spec (nth (b + k) order 0) t) as [E0|_]; [|auto].
        specialize (Hge (b + k) ltac:(lia)). lia.
      - intros i Hi. rewrite nth_set_nth by lia. destruct (Nat.eqb_spec (nth (b + k) order 0) (nth i order 0)) as [E0|E0].
        + apply Hinj in E0; lia.
        + apply H2. destruct (Nat.eq_dec i (b + k)) as [->|]; [congruence|lia]. }
    destruct (H (e - b)) as (inv' & Ev & Hv & H1 & H2); [lia|]. exists inv'. split; [exact Ev|]. split; [exact Hv|].
    intros t Ht. destruct (Nat.lt_ge_cases t b) as [Htb|Htb].
    - rewrite (H1 t Htb). destruct (Hkn t Htb) as [A B]. split; [exact A|]. intros Hf. destruct (B Hf) as [B1 B2]. rewrite firstn_length in B1.
      rewrite (nth_firstn_lt order (k := b) 0) in B2 by lia. split; [lia|exact B2].
    - destruct (Hsur t Ht) as (i & Hi & <-). assert (Hbi : b <= i).
      { destruct (Nat.lt_ge_cases i b) as [Hx|]; [specialize (Hb i Hx); lia|assumption]. }
      rewrite (H2 i) by lia. split; [intros; lia|]. intros _. rewrite HL. split; [lia|reflexivity].
  Qed.

  Definition sorted_layer (p : list nat) (l : nat) : Prop :=
    forall i j, len (l - 1) <= i -> i < j -> j < len l -> exists a b, trail C m fuel L s p first l (nth i p 0) a /\ trail C m fuel L s p first l (nth j p 0) b /\
      (precedes a b \/ (a = b /\ nth i p 0 < nth j p 0)).

  Lemma trails_fold k inv0 : k < length G -> len (length G - 2) <= length inv0 -> 2 <= length G -> (forall t, nth t inv0 0 = 0) ->
    exists p inv, ofold (ostep C s m L fuel) (seq 1 k) (seq 0 first, inv0) = Ok (p, inv) /\
      is_perm (len k) p /\ length inv = length inv0 /\ (forall j, j <= k -> is_perm (len j) (firstn (len j) p)) /\
      (k < length G - 1 -> knows p inv (len k)) /\ (forall l, 0 < l -> l <= k -> sorted_layer p l).
  Proof.
    intros Hk Hinv H2 Hz. induction k as [|k IH].
    - exists (seq 0 first), inv0. cbn [seq ofold]. split; auto. split; [apply Permutation_refl|]. split; auto. split.
      { intros j Hj. replace j with 0 by lia. rewrite <- (seq_length first 0) at 2. rewrite firstn_all. apply Permutation_refl. }
      split; [|intros; lia].
      intros _ t Ht. rewrite Hz. split; [reflexivity|intros; lia].
    - destruct IH as (p & inv & Ef & HP & HL & HJ & Hkn & Hso); [lia|]. specialize (Hkn ltac:(lia)). rewrite seq_S, ofold_app, Ef. cbn [obind ofold Nat.add].
      unfold ostep at 1. replace (Datatypes.S k - 1) with k by lia.
      rewrite !(layer_len_ok HS) by lia. cbn [obind].
      assert (Hmono : len k <= len (Datatypes.S k)) by (apply layer_lens_mono; auto; lia).
      assert (Hf0 : first <= len k) by (apply layer_lens_mono; auto; lia).
      assert (Hlast : len (Datatypes.S k) <= length (last G [])) by (rewrite last_is_nth; apply layer_lens_mono; auto; lia).
      assert (Hlp := is_perm_length HP).
      assert (Hli : len k <= length inv) by (rewrite HL; etransitivity; [|exact Hinv]; apply layer_lens_mono; auto; lia).
      destruct (@eps_is p (Datatypes.S k) inv (len k) (len (Datatypes.S k))) as [Eps Htr]; auto; try lia; try (replace (Datatypes.S k - 1) with k by lia; auto).
      rewrite Eps. cbn [obind]. set (ps := map (fun x => (skey inv (Datatypes.S k) x, x)) _). set (ss := sort_by (pair_le lex_le) ps).
      assert (Hss : Permutation ss ps) by apply sort_by_perm.
      assert (Hsnd : map snd ps = seq (len k) (len (Datatypes.S k) - len k)) by (unfold ps; rewrite map_map; cbn [snd]; apply map_id).
      set (part := map snd ss).
      assert (HPp : Permutation part (seq (len k) (len (Datatypes.S k) - len k))) by (rewrite <- Hsnd; apply Permutation_map; exact Hss).
      assert (HP' : is_perm (len (Datatypes.S k)) (p ++ part)) by (eapply perm_extend; eauto).
      assert (Hlss : length ss = len (Datatypes.S k) - len k) by (rewrite (Permutation_length Hss); unfold ps; rewrite map_length; apply seq_length).
      assert (HJ' : forall j, j <= Datatypes.S k -> is_perm (len j) (firstn (len j) (p ++ part))).
      { intros j Hj. destruct (Nat.eq_dec j (Datatypes.S k)) as [->|Hne]; [now apply is_perm_firstn|].
        rewrite firstn_app_le; [apply HJ; lia|]. rewrite Hlp. apply layer_lens_mono; auto; lia. }
      assert (Hso' : forall l, 0 < l -> l <= Datatypes.S k -> sorted_layer (p ++ part) l).
      { intros l Hl0 Hl i j Hi Hij Hj. destruct (Nat.eq_dec l (Datatypes.S k)) as [->|Hne].
        - replace (Datatypes.S k - 1) with k in Hi by lia. rewrite !app_nth2 by lia. rewrite Hlp.
          set (a := i - len k). set (b := j - len k). assert (Hab : a < b /\ b < length ss) by (unfold a, b; lia). destruct Hab as [Hab Hb].
          assert (Hdd : exists d : list N * nat, True) by (exists ([], 0); auto). destruct Hdd as (d & _).
          assert (EN : forall c, c < length ss -> nth c part 0 = snd (nth c ss d)).
          { intros c Hc. unfold part. rewrite (nth_indep _ 0 (snd d)) by (rewrite map_length; lia). apply map_nth. }
          assert (HSt : StronglySorted (fun a b => pair_le lex_le a b = true) ss).
          { apply sort_by_sorted; intros; [apply pair_le_total, lex_total|]. eapply pair_le_trans; [apply lex_trans| |]; eauto. }
          pose proof (@sorted_nth _ lex_le ss HSt a b d Hab Hb) as Hle.
          assert (Hin : forall c, c < length ss -> nth c ss d = (skey inv (Datatypes.S k) (nth c part 0), nth c part 0) /\ nth c part 0 < len (Datatypes.S k)).
          { intros c Hc. rewrite EN by exact Hc. assert (Hi1 : In (nth c ss d) ps) by (eapply Permutation_in; [exact Hss|]; now apply nth_In).
            unfold ps in Hi1. apply in_map_iff in Hi1 as (x & Ex & Hx). apply in_seq in Hx. rewrite <- Ex. cbn [snd]. split; [reflexivity|lia]. }
          destruct (Hin a ltac:(lia)) as [Ea Ha]. destruct (Hin b Hb) as [Eb Hb2]. rewrite Ea, Eb in Hle.
          set (x := nth a part 0) in *. set (y := nth b part 0) in *.
          exists (map (fun i => nth (marks x i) inv 0) (seq 0 (Nat.min 8 (Datatypes.S k)))), (map (fun i => nth (marks y i) inv 0) (seq 0 (Nat.min 8 (Datatypes.S k)))).
          split; [apply trail_app; try (replace (Datatypes.S k - 1) with k by lia); auto; try lia; apply Htr; lia|].
          split; [apply trail_app; try (replace (Datatypes.S k - 1) with k by lia); auto; try lia; apply Htr; lia|].
          pose proof (pair_le_fst Hle) as Hfst. cbn [fst] in Hfst. unfold skey in Hfst.
          apply lex_precedes in Hfst; [|rewrite !map_length; reflexivity]. destruct Hfst as [Eq|Hp]; [|now left]. right. split; [exact Eq|].
          assert (Hle2 : x <= y).
          { apply (pair_le_snd Hle). cbn [fst]. unfold skey. rewrite Eq. destruct (lex_total (map N.of_nat (map (fun i0 => nth (marks y i0) inv 0) (seq 0 (Nat.min 8 (Datatypes.S k)))) ++ repeat 0%N (8 - Datatypes.S k)) (map N.of_nat (map (fun i0 => nth (marks y i0) inv 0) (seq 0 (Nat.min 8 (Datatypes.S k)))) ++ repeat 0%N (8 - Datatypes.S k))); auto. }
          assert (Hneq : x <> y).
          { unfold x, y. apply NoDup_nth_neq; [eapply Permutation_NoDup; [symmetry; exact HPp|apply seq_NoDup]| | |lia]; unfold part; rewrite map_length; lia. }
          lia.
        - assert (Hlk : l <= k) by lia. assert (Hll : len l <= length p) by (rewrite Hlp; apply layer_lens_mono; auto; lia).
          rewrite !app_nth1 by lia. destruct (Hso l Hl0 Hlk i j Hi Hij Hj) as (a & b & Ta & Tb & Hab). exists a, b.
          assert (Hx : forall c, c < len l -> nth c p 0 < length (last G [])).
          { intros c Hc. destruct (@perm_seq_nth _ p HP) as (_ & H & _). specialize (H c ltac:(lia)). lia. }
          assert (Hext : forall x a, x < length (last G []) -> trail C m fuel L s p first l x a -> trail C m fuel L s (p ++ part) first l x a).
          { intros x a0 Hxl [A (e & Ee & B)]. split; [exact A|]. exists e. split; [exact Ee|]. intros i0 Hi0. destruct (B i0 Hi0) as (y & Hy & Hpl). exists y. split; [exact Hy|].
            destruct Hpl as [P1 P2]. split; [exact P1|]. intros Hf. destruct (P2 Hf) as [Q1 Q2]. rewrite app_length, app_nth1 by exact Q1. split; [lia|exact Q2]. }
          split; [apply Hext; auto; apply Hx; lia|]. split; [apply Hext; auto; apply Hx; lia|]. exact Hab. }
      destruct (Nat.ltb_spec (Datatypes.S k) (layers_len L - 1)) as [Hlt|Hge]; rewrite (proj1 HS) in *.
      + destruct (@inv_places (p ++ part) inv (len k) (len (Datatypes.S k)) HP' eq_refl) as (inv' & Ei & Hl' & Hkn').
        { apply HJ'. lia. }
        { exact Hmono. }
        { rewrite HL. etransitivity; [|exact Hinv]. apply layer_lens_mono; auto; lia. }
        { exact Hf0. }
        { rewrite firstn_app_le by lia. rewrite <- Hlp, firstn_all, Hlp. exact Hkn. }
        rewrite Ei. cbn [obind]. exists (p ++ part), inv'. split; [reflexivity|]. split; [exact HP'|]. split; [lia|]. auto.
      + cbn [obind]. exists (p ++ part), inv. split; [reflexivity|]. split; [exact HP'|]. split; [exact HL|]. split; [exact HJ'|]. split; [lia|exact Hso'].
  Qed.

  Lemma order_sorted p : 2 <= length G -> compute_order C m fuel (mkGranne L s) = Ok p -> forall l, 0 < l -> l < length G -> sorted_layer p l.
  Proof.
    intros H2. unfold compute_order. cbn [gr_layers gr_elems]. rewrite (proj1 HS).
    rewrite (layer_len_ok HS) by lia. cbn [obind]. replace (2 <=? length G) with true by (symmetry; apply Nat.leb_le; auto).
    rewrite (layer_len_ok HS) by lia. cbn [obind].
    destruct (@trails_fold (length G - 1) (repeat 0 (len (length G - 2)))) as (p' & inv & Ef & _ & _ & _ & _ & Hs); auto; try lia.
    { now rewrite repeat_length. }
    { intros t. apply nth_repeat. }
    unfold ostep in Ef. rewrite (proj1 HS) in Ef. rewrite Ef. cbn [obind fst]. intros E0. injection E0 as <-. intros l Hl Hlt. apply Hs; lia.
  Qed.
End Order.
