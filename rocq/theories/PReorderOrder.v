(** * Proofs: the orders computed by [reorder] and [reorder_by_keys] *)
From Verif Require Import Base BaseFacts Bytes MSliceVec SSliceVec MOffsets MSetVec SOffsets MIndexIo SIndexIo PIndexIo MSearch SSearch PHeap PSearch PSearchIx MBuild MReorder SReorder PReorder.
Set Implicit Arguments. Unset Strict Implicit.

Lemma perm_extend b e order part : is_perm b order -> b <= e -> Permutation part (seq b (e - b)) -> is_perm e (order ++ part).
Proof.
  unfold is_perm. intros H1 H2 H3. replace e with (b + (e - b)) by lia. rewrite seq_app. cbn [Nat.add].
  apply Permutation_app; auto.
Qed.

Lemma firstn_app_le {A} k (a b : list A) : k <= length a -> firstn k (a ++ b) = firstn k a.
Proof. intros H. rewrite firstn_app. replace (k - length a) with 0 by lia. cbn. now rewrite app_nil_r. Qed.

Lemma is_perm_length n p : is_perm n p -> length p = n.
Proof. intros H. exact (proj1 (@perm_seq_nth n p H)). Qed.

Lemma is_perm_firstn n p : is_perm n p -> is_perm n (firstn n p).
Proof. intros H. pose proof (is_perm_length H). subst n. now rewrite firstn_all. Qed.

Lemma layer_lens_mono G i j : graph_ok G -> i <= j -> j < length G -> length (nth i G []) <= length (nth j G []).
Proof. intros [_ HG] H1 H2. apply (HG i j); auto; apply nth_error_nth'; lia. Qed.

Lemma start_le G k : graph_ok G -> k < length G -> layer_start G k <= length (nth k G []).
Proof. intros HG Hk. destruct k as [|k]; cbn [layer_start]; [lia|]. apply layer_lens_mono; auto. Qed.

Lemma keeps_layers_iff G p : G <> [] -> (forall j, j < length G -> is_perm (length (nth j G [])) (firstn (length (nth j G [])) p)) ->
  is_perm (length (last G [])) p -> keeps_layers G p.
Proof.
  intros Hne H1 H2. split; auto. rewrite Forall_forall. intros g Hg. apply (In_nth _ _ []) in Hg as (j & Hj & <-). auto.
Qed.

Lemma layer_len_ok m L G i : index_shows m L G -> i < length G -> layer_len L i = Ok (length (nth i G [])).
Proof. intros HS Hi. destruct (proj2 HS i (nth i G [])) as [E _]; [apply nth_error_nth'; auto|exact E]. Qed.

Lemma last_is_nth {A} (G : list A) d : last G d = nth (length G - 1) G d.
Proof.
  induction G as [|x G IH]; auto. destruct G as [|y G]; auto.
  change (last (x :: y :: G) d) with (last (y :: G) d). rewrite IH. cbn [length]. replace (S (S (length G)) - 1) with (S (length G)) by lia.
  replace (S (length G) - 1) with (length G) by lia. reflexivity.
Qed.

(** the order of pairs *)
Section PairLe.
  Context {K : Type} (le : K -> K -> bool).
  Hypothesis le_total : forall x y, le x y = true \/ le y x = true.
  Hypothesis le_trans : forall x y z, le x y = true -> le y z = true -> le x z = true.

  Lemma pair_le_total a b : pair_le le a b = true \/ pair_le le b a = true.
  Proof.
    unfold pair_le. destruct (le (fst a) (fst b)) eqn:E1; destruct (le (fst b) (fst a)) eqn:E2; auto.
    - destruct (Nat.leb_spec (snd a) (snd b)); auto. right. apply Nat.leb_le. lia.
    - destruct (le_total (fst a) (fst b)); congruence.
  Qed.
  Lemma pair_le_trans a b c : pair_le le a b = true -> pair_le le b c = true -> pair_le le a c = true.
  Proof.
    unfold pair_le. destruct (le (fst a) (fst b)) eqn:E1; [|discriminate]. destruct (le (fst b) (fst c)) eqn:E2; [|discriminate].
    rewrite (le_trans E1 E2). intros H1 H2. destruct (le (fst c) (fst a)) eqn:E3; auto.
    rewrite (le_trans E2 E3) in H1. rewrite (le_trans E3 E1) in H2. apply Nat.leb_le in H1, H2. apply Nat.leb_le. lia.
  Qed.
  Lemma pair_le_fst a b : pair_le le a b = true -> le (fst a) (fst b) = true.
  Proof. unfold pair_le. destruct (le (fst a) (fst b)); auto. Qed.
  Lemma pair_le_snd a b : pair_le le a b = true -> le (fst b) (fst a) = true -> snd a <= snd b.
  Proof. unfold pair_le. destruct (le (fst a) (fst b)); [|discriminate]. intros H E. rewrite E in H. now apply Nat.leb_le. Qed.

  Lemma sorted_nth (l : list (K * nat)) : StronglySorted (fun a b => pair_le le a b = true) l ->
    forall i j d, i < j -> j < length l -> pair_le le (nth i l d) (nth j l d) = true.
  Proof.
    induction 1 as [|x l HS IH HF]; intros i j d Hij Hj; cbn [length] in Hj; [lia|].
    destruct j as [|j]; [lia|]. destruct i as [|i]; cbn [nth].
    - rewrite Forall_forall in HF. apply HF. apply nth_In. lia.
    - apply IH; lia.
  Qed.
End PairLe.

Lemma NoDup_nth_neq (l : list nat) i j d : NoDup l -> i < length l -> j < length l -> i <> j -> nth i l d <> nth j l d.
Proof. intros H Hi Hj Hne E. apply Hne. eapply NoDup_nth; eauto. Qed.

Lemma map_nth_seq {A B} (h : A -> B) d l : map (fun i => h (nth i l d)) (seq 0 (length l)) = map h l.
Proof. induction l as [|x l IH]; cbn [length seq map nth]; auto. f_equal. rewrite <- seq_shift, map_map. exact IH. Qed.

(** ** reorder_by_keys *)
Section Keys.
  Context {K : Type} (le : K -> K -> bool) (keys : list K).
  Hypothesis Hle : key_order le.
  Variables (m : mode) (L : layers) (G : list (list (list N))).
  Hypothesis HS : index_shows m L G.
  Hypothesis HG : graph_ok G.
  Hypothesis Hk : length keys = length (last G []).

  Definition kstep (lens : list nat) (order : list nat) (layer : nat) : outcome (list nat) :=
             let* begin := (if 0 <? layer then index lens (layer - 1) else Ok 0) in
             let* end_ := index lens layer in
             let* layer_order := omapM (fun l => let* k := index keys l in Ok (k, l)) (seq begin (end_ - begin)) in
             Ok (order ++ map snd (sort_by (pair_le le) layer_order)).

  Lemma key_pairs b e : e <= length keys ->
    exists ps, omapM (fun l => let* k := index keys l in Ok (k, l)) (seq b (e - b)) = Ok ps /\ map snd ps = seq b (e - b) /\
      Forall (fun q => nth_error keys (snd q) = Some (fst q)) ps.
  Proof.
    intros He. assert (H : forall n, b + n <= length keys -> 
      exists ps, omapM (fun l => let* k := index keys l in Ok (k, l)) (seq b n) = Ok ps /\ map snd ps = seq b n /\
      Forall (fun q => nth_error keys (snd q) = Some (fst q)) ps).
    { intros n. revert b. clear e He. induction n as [|n IH]; intros b Hb; cbn [seq omapM]; [exists []; auto|].
      destruct (nth_error keys b) as [k|] eqn:Ek; [|apply nth_error_None in Ek; lia].
      rewrite (proj2 (index_ok keys b k)) by auto. cbn [obind]. destruct (IH (S b)) as (ps & -> & E & HF); [lia|]. cbn [obind].
      exists ((k, b) :: ps). cbn [map snd]. rewrite E. auto. }
    destruct (Nat.le_gt_cases b e); [apply H; lia|]. replace (e - b) with 0 by lia. cbn. exists []; auto.
  Qed.

  Lemma keys_fold k : k <= length G ->
    exists p, ofold (kstep (map (@length _) G)) (seq 0 k) [] = Ok p /\ is_perm (layer_start G k) p /\
      forall j, j < k -> is_perm (length (nth j G [])) (firstn (length (nth j G [])) p) /\
                         sorted_range le keys p (layer_start G j) (length (nth j G [])).
  Proof.
    induction k as [|k IH]; intros Hkl.
    - exists []. cbn. split; auto. split; [constructor|]. intros; lia.
    - destruct IH as (p & E & HP & HJ); [lia|]. rewrite seq_S, ofold_app, E. cbn [obind ofold Nat.add].
      unfold kstep at 1.
      assert (Eb : (if 0 <? k then index (map (@length _) G) (k - 1) else Ok 0) = Ok (layer_start G k)).
      { destruct k as [|k]; [reflexivity|]. cbn [Nat.ltb Nat.leb layer_start]. replace (S k - 1) with k by lia.
        rewrite (index_nth _ 0) by (rewrite map_length; lia). f_equal. change 0 with (length (@nil (list N))). apply map_nth. }
      rewrite Eb. cbn [obind]. rewrite (index_nth (map (@length _) G) 0) by (rewrite map_length; lia). cbn [obind].
      replace (nth k (map (@length _) G) 0) with (length (nth k G [])) by (change 0 with (length (@nil (list N))); now rewrite map_nth).
      assert (Hse := start_le HG Hkl). assert (Hel : length (nth k G []) <= length keys).
      { rewrite Hk, last_is_nth. apply layer_lens_mono; auto; lia. }
      destruct (@key_pairs (layer_start G k) (length (nth k G []))) as (ps & -> & Eps & HF); auto. cbn [obind].
      set (s := sort_by (pair_le le) ps).
      assert (Hs : Permutation s ps) by apply sort_by_perm.
      assert (Hsnd : Permutation (map snd s) (seq (layer_start G k) (length (nth k G []) - layer_start G k))) by (rewrite <- Eps; now apply Permutation_map).
      assert (Hlp := is_perm_length HP).
      assert (HP' : is_perm (length (nth k G [])) (p ++ map snd s)) by (eapply perm_extend; eauto).
      eexists. split; [reflexivity|]. split; [exact HP'|]. intros j Hj. destruct (Nat.eq_dec j k) as [->|Hne].
      + split; [now apply is_perm_firstn|]. intros i i' ki kj H1 H2 H3 Hki Hkj.
        assert (HL : length s = length (nth k G []) - layer_start G k).
        { rewrite <- (map_length snd s), (Permutation_length Hsnd), seq_length. reflexivity. }
        rewrite app_nth2 in Hki |- * by lia. rewrite app_nth2 in Hkj |- * by lia.
        rewrite Hlp in *.
        set (a := i - layer_start G k) in *. set (b := i' - layer_start G k) in *.
        assert (Hd : exists d : K * nat, True) by (exists (ki, 0); auto). destruct Hd as (d & _).
        assert (EN : forall c, c < length s -> nth c (map snd s) 0 = snd (nth c s d)).
        { intros c Hc. rewrite (nth_indep _ 0 (snd d)) by (rewrite map_length; lia). apply map_nth. }
        rewrite EN in Hki |- * by lia. rewrite EN in Hkj |- * by lia.
        assert (HFs : Forall (fun q => nth_error keys (snd q) = Some (fst q)) s) by (eapply Permutation_Forall; [symmetry; exact Hs|exact HF]).
        rewrite Forall_forall in HFs.
        rewrite (HFs (nth a s d)) in Hki by (apply nth_In; lia). rewrite (HFs (nth b s d)) in Hkj by (apply nth_In; lia).
        injection Hki as <-. injection Hkj as <-.
        assert (HSt : StronglySorted (fun a b => pair_le le a b = true) s).
        { apply sort_by_sorted; intros; [apply pair_le_total, Hle|]. eapply pair_le_trans; [apply Hle| |]; eauto. }
        pose proof (@sorted_nth _ le s HSt a b d) as Hab. specialize (Hab ltac:(unfold a, b; lia) ltac:(unfold b; lia)).
        split; [now apply pair_le_fst in Hab|]. intros Hba.
        pose proof (pair_le_snd Hab Hba) as Hle2.
        assert (Hneq : nth a (map snd s) 0 <> nth b (map snd s) 0).
        { apply NoDup_nth_neq; try (rewrite map_length; unfold a, b; lia); [|unfold a, b; lia].
          eapply Permutation_NoDup; [symmetry; exact Hsnd|apply seq_NoDup]. }
        rewrite !EN in Hneq by (unfold a, b; lia). lia.
      + assert (Hjk : j < k) by lia. destruct (HJ j Hjk) as [H1 H2].
        assert (Hlj : length (nth j G []) <= length p).
        { rewrite Hlp. destruct k as [|k]; [lia|]. cbn [layer_start]. apply layer_lens_mono; auto; lia. }
        rewrite firstn_app_le by auto. split; auto.
        intros i i' ki kj A1 A2 A3. rewrite !app_nth1 by lia. now apply H2.
  Qed.

  Lemma keys_order_ok : G <> [] ->
    exists p, keys_order le L keys = Ok p /\ keeps_layers G p /\
      forall j, j < length G -> sorted_range le keys p (layer_start G j) (length (nth j G [])).
  Proof.
    intros Hne. assert (0 < length G) by (destruct G; [congruence|cbn; lia]). unfold keys_order, index_len.
    rewrite (proj1 HS). replace (0 <? length G) with true by (symmetry; apply Nat.ltb_lt; auto).
    rewrite (layer_len_ok HS) by lia. cbn [obind].
    rewrite <- last_is_nth, <- Hk, Nat.eqb_refl. cbn [oassert obind].
    rewrite (@omapM_pure _ _ _ (fun i => length (nth i G []))).
    2:{ intros i Hi. apply in_seq in Hi. apply (layer_len_ok HS). lia. }
    cbn [obind].
    assert (EL : map (fun i => length (nth i G [])) (seq 0 (length G)) = map (@length _) G).
    { apply map_nth_seq. }
    rewrite EL, map_length.
    destruct (@keys_fold (length G)) as (p & E & HP & HJ); auto.
    exists p. split; [exact E|]. split.
    - apply keeps_layers_iff; auto; [intros j Hj; now apply HJ|].
      destruct (length G) as [|k] eqn:EG; [lia|]. cbn [layer_start] in HP. rewrite last_is_nth, EG. now replace (S k - 1) with k by lia.
    - intros j Hj. now apply HJ.
  Qed.
End Keys.

(** ** compute_order *)
Section Trail.
  Variables (m : mode) (L : layers) (G : list (list (list N))) (dist : nat -> outcome Z) (f : nat -> Z) (fuel : nat).
  Hypothesis HS : index_shows m L G.
  Hypothesis HG : graph_ok G.
  Hypothesis Hd : dist_is dist f (length (last G [])).
  Hypothesis Hfuel : length (last G []) < fuel.
  Hypothesis Hn : (N.of_nat (length (last G [])) <= 4294967296)%N.

  Lemma graphs_index i : i < length G -> index (graphs_of m L) i = Ok (fun j => get_neighbors m L j i).
  Proof using HS.
    intros Hi. apply index_ok. unfold graphs_of. rewrite nth_error_map. rewrite (proj1 HS).
    rewrite (nth_error_nth' (seq 0 (length G)) 0) by (rewrite seq_length; auto). rewrite seq_nth by auto. reflexivity.
  Qed.

  Lemma layer_pos i : i < length G -> 0 < length (nth i G []).
  Proof using HG.
    intros Hi. destruct (graph_ok_nth HG (nth_error_nth' G [] Hi)) as [H _]. destruct (nth i G []); [congruence|apply Nat.lt_0_succ].
  Qed.

  Definition tstep (eps : list N) (i : nat) : outcome (list N) :=
           let* layer := index (graphs_of m L) i in
           let* ep := (if i =? 0 then Ok 0 else let* e := index eps i in Ok (N.to_nat e)) in
           let* res := search_for_neighbors fuel layer dist ep 1 in
           let* r := index res 0 in
           let* id := to_id (fst r) in
           store eps i id.

  Lemma trail_fold layer k : 0 < layer -> layer < length G -> k <= layer -> k <= NUM_LAYERS ->
    exists t, ofold tstep (seq 0 k) (repeat 0%N NUM_LAYERS) = Ok t /\ length t = NUM_LAYERS /\
      Forall (fun y => N.to_nat y < length (nth (layer - 1) G [])) t /\ (forall i, k <= i -> nth i t 0%N = 0%N).
  Proof.
    intros Hl1 Hl2. induction k as [|k IH]; intros Hk Hk8.
    - exists (repeat 0%N NUM_LAYERS). split; auto. rewrite repeat_length. split; auto. split.
      + rewrite Forall_forall. intros y Hy. apply repeat_spec in Hy. subst y. apply layer_pos. lia.
      + intros i _. apply nth_repeat.
    - destruct IH as (t & E & HL & HF & H0); try lia. rewrite seq_S, ofold_app, E. cbn [obind ofold Nat.add].
      unfold tstep at 1. rewrite graphs_index by lia. cbn [obind].
      assert (Eep : (if k =? 0 then Ok 0 else let* e := index t k in Ok (N.to_nat e)) = Ok 0).
      { destruct (k =? 0); auto. rewrite (index_nth t 0%N) by lia. cbn [obind]. now rewrite H0 by lia. }
      rewrite Eep. cbn [obind].
      assert (Hkg : nth_error G k = Some (nth k G [])) by (apply nth_error_nth'; lia).
      assert (Hpos : 0 < length (nth k G [])) by (apply layer_pos; lia).
      destruct (@layer_search m L G dist f fuel HS HG Hd Hfuel k _ 0 1 Hkg Hpos) as (l & El & HFin); [lia|].
      rewrite El. cbn [obind]. destruct HFin as (F1 & F2 & F3 & F4 & F5 & F6 & r & F7 & F8).
      destruct l as [|a l]; [destruct F7|]. cbn [map index nth_error ounwrap obind fst swap_key].
      destruct (F4 a (or_introl eq_refl)) as (_ & Ha & _).
      assert (Hka : length (nth k G []) <= length (nth (layer - 1) G [])) by (apply layer_lens_mono; auto; lia).
      assert (Hkn : length (nth k G []) <= length (last G [])) by (rewrite last_is_nth; apply layer_lens_mono; auto; lia).
      unfold to_id. replace (N.of_nat (snd a) <? 4294967296)%N with true by (symmetry; apply N.ltb_lt; lia).
      cbn [obind]. assert (Hkt : k < length t) by lia. rewrite (proj2 (store_ok t k _ _) (conj Hkt eq_refl)).
      eexists. split; [reflexivity|]. rewrite set_nth_length. split; auto. split.
      + rewrite Forall_forall in *. intros y Hy. apply (In_nth _ _ 0%N) in Hy as (i & Hi & <-). rewrite set_nth_length in Hi.
        rewrite nth_set_nth by lia. destruct (k =? i); [lia|]. apply HF. now apply nth_In.
      + intros i Hi. rewrite nth_set_nth by lia. destruct (Nat.eqb_spec k i); [lia|]. apply H0. lia.
  Qed.

  Lemma trail_ok layer : 0 < layer -> layer < length G ->
    exists t, find_entrypoint_trail fuel (graphs_of m L) dist layer = Ok t /\ length t = NUM_LAYERS /\
      Forall (fun y => N.to_nat y < length (nth (layer - 1) G [])) t.
  Proof.
    intros H1 H2. unfold find_entrypoint_trail.
    destruct (@trail_fold layer (Nat.min (Nat.min NUM_LAYERS layer) (length (graphs_of m L))) H1 H2) as (t & E & HL & HF & _); try lia.
    exists t. auto.
  Qed.
End Trail.

Section Compute.
  Context {S E : Type} (C : cops S E) (s : S).
  Variables (m : mode) (L : layers) (G : list (list (list N))) (fuel : nat).
  Hypothesis HS : index_shows m L G.
  Hypothesis HG : graph_ok G.
  Hypothesis Hn : (N.of_nat (length (last G [])) <= 4294967296)%N.
  Hypothesis Hfuel : length (last G []) < fuel.
  Hypothesis Hel : has_elements C s (length (last G [])).

  Definition ostep (st : list nat * list nat) (layer : nat) : outcome (list nat * list nat) :=
        let '(order, order_inv) := st in
        let* begin := layer_len L (layer - 1) in
        let* end_ := layer_len L layer in
        let* eps := omapM (fun idx =>
            let* e := c_get C s idx in
            let* t := find_entrypoint_trail fuel (graphs_of m L) (fun i => c_dte C s i e) layer in
            let* t' := omapM (fun i => let* x := index order_inv (N.to_nat i) in
                                       Ok (N.of_nat x mod 4294967296)%N) t in
            Ok (t', idx)) (seq begin (end_ - begin)) in
        let order := order ++ map snd (sort_by (pair_le lex_le) eps) in
        let* order_inv :=
          (if layer <? layers_len L - 1
           then ofold (fun inv i => let* o := index order i in store inv o i)
                      (seq begin (end_ - begin)) order_inv
           else Ok order_inv) in
        Ok (order, order_inv).

  Lemma eps_ok layer order_inv b e : 0 < layer -> layer < length G -> e <= length (last G []) ->
    length (nth (layer - 1) G []) <= length order_inv ->
    exists ps, omapM (fun idx =>
            let* e := c_get C s idx in
            let* t := find_entrypoint_trail fuel (graphs_of m L) (fun i => c_dte C s i e) layer in
            let* t' := omapM (fun i => let* x := index order_inv (N.to_nat i) in
                                       Ok (N.of_nat x mod 4294967296)%N) t in
            Ok (t', idx)) (seq b (e - b)) = Ok ps /\ map snd ps = seq b (e - b).
  Proof.
    intros H1 H2 He Hinv.
    assert (H : forall l, (forall idx, In idx l -> idx < length (last G [])) -> exists ps, omapM (fun idx =>
            let* e := c_get C s idx in
            let* t := find_entrypoint_trail fuel (graphs_of m L) (fun i => c_dte C s i e) layer in
            let* t' := omapM (fun i => let* x := index order_inv (N.to_nat i) in
                                       Ok (N.of_nat x mod 4294967296)%N) t in
            Ok (t', idx)) l = Ok ps /\ map snd ps = l).
    { induction l as [|idx l IH]; intros Hl; cbn [omapM]; [exists []; auto|].
      destruct (Hel (Hl idx (or_introl eq_refl))) as (x & Ex & Hx). rewrite Ex. cbn [obind].
      destruct (@trail_ok m L G (fun i => c_dte C s i x) (fun i => match c_dte C s i x with Ok d => d | Fail _ => 0%Z end) fuel HS HG) with (layer := layer)
        as (t & Et & _ & HF); auto.
      { intros i Hi. destruct (Hx i Hi) as (d & ->). reflexivity. }
      rewrite Et. cbn [obind].
      rewrite (@omapM_pure _ _ _ (fun i => (N.of_nat (nth (N.to_nat i) order_inv 0%nat) mod 4294967296)%N)).
      2:{ intros i Hi. rewrite Forall_forall in HF. specialize (HF _ Hi). rewrite (index_nth order_inv 0) by lia. reflexivity. }
      cbn [obind]. destruct IH as (ps & -> & Eps); [intros; apply Hl; now right|]. cbn [obind].
      eexists. split; [reflexivity|]. cbn [map snd]. now rewrite Eps. }
    apply H. intros idx Hi. apply in_seq in Hi. lia.
  Qed.

  Lemma inv_fold order inv b e : is_perm e order -> e <= length inv ->
    exists inv', ofold (fun inv i => let* o := index order i in store inv o i) (seq b (e - b)) inv = Ok inv' /\ length inv' = length inv.
  Proof.
    intros HP Hle. destruct (@perm_seq_nth e order HP) as (HL & Hlt & _).
    assert (H : forall l inv, (forall i, In i l -> i < e) -> e <= length inv -> 
       exists inv', ofold (fun inv i => let* o := index order i in store inv o i) l inv = Ok inv' /\ length inv' = length inv).
    { induction l as [|i l IH]; intros v Hl Hv; cbn [ofold]; [eauto|].
      assert (Hi : i < e) by (apply Hl; now left).
      rewrite (index_nth order 0) by lia. cbn [obind].
      assert (Ho : nth i order 0 < length v) by (specialize (Hlt i Hi); lia).
      rewrite (proj2 (store_ok v (nth i order 0) i _) (conj Ho eq_refl)). cbn [obind].
      destruct (IH (set_nth v (nth i order 0) i)) as (v' & E' & HL'); [intros; apply Hl; now right|now rewrite set_nth_length|].
      exists v'. rewrite set_nth_length in HL'. auto. }
    apply H; auto. intros i Hi. apply in_seq in Hi. lia.
  Qed.

  Lemma order_fold k inv0 : k < length G -> length (nth (length G - 2) G []) <= length inv0 -> 2 <= length G ->
    exists p inv, ofold ostep (seq 1 k) (seq 0 (length (nth 0 G [])), inv0) = Ok (p, inv) /\
      is_perm (length (nth k G [])) p /\ length inv = length inv0 /\
      (forall j, j <= k -> is_perm (length (nth j G [])) (firstn (length (nth j G [])) p)) /\
      firstn (length (nth 0 G [])) p = seq 0 (length (nth 0 G [])).
  Proof.
    intros Hk Hinv H2. induction k as [|k IH].
    - exists (seq 0 (length (nth 0 G []))), inv0. cbn [seq ofold]. split; auto. split; [apply Permutation_refl|]. split; auto.
      assert (HE : firstn (length (nth 0 G [])) (seq 0 (length (nth 0 G []))) = seq 0 (length (nth 0 G []))).
      { rewrite <- (seq_length (length (nth 0 G [])) 0) at 1. apply firstn_all. }
      split; auto. intros j Hj. replace j with 0 by lia. rewrite HE. apply Permutation_refl.
    - destruct IH as (p & inv & Ef & HP & HL & HJ & H0); [lia|]. rewrite seq_S, ofold_app, Ef. cbn [obind ofold Nat.add].
      unfold ostep at 1. replace (Datatypes.S k - 1) with k by lia.
      rewrite !(layer_len_ok HS) by lia. cbn [obind].
      assert (Hmono : length (nth k G []) <= length (nth (Datatypes.S k) G [])) by (apply layer_lens_mono; auto; lia).
      assert (Hlast : length (nth (Datatypes.S k) G []) <= length (last G [])) by (rewrite last_is_nth; apply layer_lens_mono; auto; lia).
      destruct (@eps_ok (Datatypes.S k) inv (length (nth k G [])) (length (nth (Datatypes.S k) G []))) as (ps & Eps & Hsnd); auto; [lia| |].
      { rewrite HL. replace (Datatypes.S k - 1) with k by lia. etransitivity; [|exact Hinv]. apply layer_lens_mono; auto; lia. }
      rewrite Eps. cbn [obind]. set (part := map snd (sort_by (pair_le lex_le) ps)).
      assert (HPp : Permutation part (seq (length (nth k G [])) (length (nth (Datatypes.S k) G []) - length (nth k G [])))).
      { rewrite <- Hsnd. apply Permutation_map, sort_by_perm. }
      assert (HP' : is_perm (length (nth (Datatypes.S k) G [])) (p ++ part)) by (eapply perm_extend; eauto).
      assert (Hlp := is_perm_length HP).
      assert (Hrest : forall inv' : list nat, length inv' = length inv -> exists (p' inv'' : list nat), Ok (p ++ part, inv') = Ok (p', inv'') /\
        is_perm (length (nth (Datatypes.S k) G [])) p' /\ length inv'' = length inv0 /\
        (forall j, j <= Datatypes.S k -> is_perm (length (nth j G [])) (firstn (length (nth j G [])) p')) /\
        firstn (length (nth 0 G [])) p' = seq 0 (length (nth 0 G []))).
      { intros inv' Hi. exists (p ++ part), inv'. split; auto. split; auto. split; [lia|]. split.
        - intros j Hj. destruct (Nat.eq_dec j (Datatypes.S k)) as [->|Hne]; [now apply is_perm_firstn|].
          rewrite firstn_app_le; [apply HJ; lia|]. rewrite Hlp. apply layer_lens_mono; auto; lia.
        - rewrite firstn_app_le; auto. rewrite Hlp. apply layer_lens_mono; auto; lia. }
      destruct (Nat.ltb_spec (Datatypes.S k) (layers_len L - 1)) as [Hlt|Hge].
      + rewrite (proj1 HS) in Hlt.
        destruct (@inv_fold (p ++ part) inv (length (nth k G [])) (length (nth (Datatypes.S k) G []))) as (inv' & Ei & HLi); auto.
        { rewrite HL. etransitivity; [|exact Hinv]. apply layer_lens_mono; auto; lia. }
        rewrite Ei. cbn [obind]. now apply Hrest.
      + cbn [obind]. now apply Hrest.
  Qed.

  Lemma compute_order_ok : 2 <= length G ->
    exists p, compute_order C m fuel (mkGranne L s) = Ok p /\ keeps_layers G p /\
      firstn (length (nth 0 G [])) p = seq 0 (length (nth 0 G [])).
  Proof.
    intros H2. unfold compute_order. cbn [gr_layers gr_elems]. rewrite (proj1 HS).
    rewrite (layer_len_ok HS) by lia. cbn [obind]. replace (2 <=? length G) with true by (symmetry; apply Nat.leb_le; auto).
    rewrite (layer_len_ok HS) by lia. cbn [obind].
    destruct (@order_fold (length G - 1) (repeat 0 (length (nth (length G - 2) G [])))) as (p & inv & Ef & HP & _ & HJ & H0); auto; try lia.
    { now rewrite repeat_length. }
    unfold ostep in Ef. rewrite (proj1 HS) in Ef.
    exists p. rewrite Ef. cbn [obind fst]. split; auto. split; auto.
    apply keeps_layers_iff; [intros E0; rewrite E0 in H2; cbn in H2; lia| |].
    - intros j Hj. apply HJ. lia.
    - now rewrite last_is_nth.
  Qed.
End Compute.
