(** * Proofs: searching a renamed index *)
From Verif Require Import Base BaseFacts Bytes MSliceVec SSliceVec MOffsets MSetVec SOffsets MIndexIo SIndexIo MSearch SSearch PHeap PSearch PSearchIx MBuild MReorder SReorder PReorder PReorderOrder.
Set Implicit Arguments. Unset Strict Implicit.

Section Sim.
  Variables (n : nat) (q : nat -> nat) (f : nat -> Z).
  Hypothesis Hq : forall x, x < n -> q x < n.
  Hypothesis Hinj : forall x y, x < n -> y < n -> q x = q y -> x = y.
  Hypothesis Hties : forall x y, x < n -> y < n -> f x = f y -> x = y.
  Variables (dist dist' : nat -> outcome Z) (nbrs nbrs' : nat -> outcome (list nat)) (nb' : nat -> list nat).
  Hypothesis Hd : forall x, x < n -> dist x = Ok (f x).
  Hypothesis Hd' : forall x, x < n -> dist' x = Ok (f (q x)).
  Hypothesis Hnb' : forall x, x < n -> nbrs' x = Ok (nb' x) /\ Forall (fun y => y < n) (nb' x).
  Hypothesis Hnb : forall x, x < n -> nbrs (q x) = Ok (map q (nb' x)).

  Definition rk (k : key) : key := (fst k, q (snd k)).
  Definition good (k : key) : Prop := snd k < n /\ fst k = f (q (snd k)).

  Lemma rk_le a b : good a -> good b -> key_le (rk a) (rk b) = key_le a b.
  Proof using Hq Hinj Hties.
    intros [A1 A2] [B1 B2]. unfold key_le, rk. cbn [fst snd].
    destruct (Z.eqb_spec (fst a) (fst b)) as [He|]; auto. cbn [andb].
    assert (snd a = snd b). { apply Hinj; auto. apply Hties; auto. congruence. }
    rewrite H. now rewrite !Nat.leb_refl.
  Qed.

  Lemma rk_insert k l : good k -> Forall good l -> insert_by key_le (rk k) (map rk l) = map rk (insert_by key_le k l).
  Proof using Hq Hinj Hties.
    intros Hk. induction l as [|x l IH]; intros HF; cbn [insert_by map]; auto.
    rewrite rk_le by (auto; apply (Forall_inv HF)). destruct (key_le k x); cbn [map]; auto.
    rewrite IH by apply (Forall_inv_tail HF). reflexivity.
  Qed.

  Lemma good_insert k l : good k -> Forall good l -> Forall good (insert_by key_le k l).
  Proof using Type. intros Hk HF. eapply Permutation_Forall; [symmetry; apply insert_by_perm|]. constructor; auto. Qed.

  Definition rh (h : msh key) : msh key := mkMsh (map rk (hs h)) (hmax h).
  Definition rst (st : sst) : sst := mkSst (rh (s_res st)) (map rk (s_pq st)) (map q (s_vis st)).
  Definition gst (st : sst) : Prop := Forall good (hs (s_res st)) /\ Forall good (s_pq st) /\ Forall (fun x => x < n) (s_vis st).

  Definition omap {A B} (h : A -> B) (o : outcome A) : outcome B := let* x := o in Ok (h x).

  Lemma rh_full h : msh_is_full (rh h) = msh_is_full h.
  Proof using Type. unfold msh_is_full, rh. cbn [hs hmax]. now rewrite map_length. Qed.
  Lemma rh_peek h : msh_peek (rh h) = option_map rk (msh_peek h).
  Proof using Type. unfold msh_peek, rh. cbn [hs]. rewrite map_length, nth_error_map. reflexivity. Qed.

  Lemma peek_good h k : Forall good (hs h) -> msh_peek h = Some k -> good k.
  Proof using Type. intros HF H. rewrite Forall_forall in HF. apply HF. eapply nth_error_In; eauto. Qed.

  Lemma removelast_map_ {A B} (h : A -> B) l : removelast (map h l) = map h (removelast l).
  Proof using Type. induction l as [|x l IH]; auto. destruct l as [|y l]; auto. cbn [map removelast] in *. now rewrite IH. Qed.
  Lemma removelast_Forall {A} (P : A -> Prop) l : Forall P l -> Forall P (removelast l).
  Proof using Type. induction 1 as [|x l Hx HF IH]; [constructor|]. destruct l; cbn [removelast] in *; [constructor|]. constructor; auto. Qed.

  Lemma rh_push h k : Forall good (hs h) -> good k ->
    msh_push key_le (rh h) (rk k) = omap (fun r => (rh (fst r), snd r)) (msh_push key_le h k) /\
    forall h' b, msh_push key_le h k = Ok (h', b) -> Forall good (hs h').
  Proof using Hq Hinj Hties.
    intros HF Hk. unfold msh_push. rewrite rh_full, rh_peek. destruct (msh_is_full h) eqn:Ef; cbn [negb].
    - destruct (msh_peek h) as [p|] eqn:Ep; cbn [option_map ounwrap obind omap]; [|split; [reflexivity|discriminate]].
      pose proof (peek_good HF Ep) as Hp. unfold lt_of. rewrite rk_le by auto.
      destruct (negb (key_le p k)); [|split; [reflexivity|intros h' b E; injection E as <- <-; auto]].
      cbn [hmax hs rh]. rewrite map_length. destruct (hmax h <=? length (hs h)).
      + rewrite removelast_map_, rk_insert by (auto using removelast_Forall). split; [reflexivity|].
        intros h' b E. injection E as <- <-. cbn [hs]. apply good_insert; auto using removelast_Forall.
      + rewrite rk_insert by auto. split; [reflexivity|]. intros h' b E. injection E as <- <-. cbn [hs]. now apply good_insert.
    - cbn [hs hmax rh omap obind fst snd]. rewrite rk_insert by auto. split; [reflexivity|].
      intros h' b E. injection E as <- <-. cbn [hs]. now apply good_insert.
  Qed.

  Lemma rmem x l : x < n -> Forall (fun y => y < n) l -> mem (q x) (map q l) = mem x l.
  Proof using Hinj.
    intros Hx. induction 1 as [|y l Hy HF IH]; auto. unfold mem in *. cbn [map existsb]. rewrite IH. f_equal.
    destruct (Nat.eqb_spec x y) as [->|Hne]; [apply Nat.eqb_refl|]. apply Nat.eqb_neq. intros E. apply Hne. now apply Hinj.
  Qed.

  Lemma rvisit res x pq vis : x < n -> Forall good (hs res) -> Forall good pq -> Forall (fun y => y < n) vis ->
    s_visit dist (rh res) (map rk pq, map q vis) (q x) = omap (fun r => (map rk (fst r), map q (snd r))) (s_visit dist' res (pq, vis) x) /\
    forall pq' vis', s_visit dist' res (pq, vis) x = Ok (pq', vis') -> Forall good pq' /\ Forall (fun y => y < n) vis'.
  Proof.
    intros Hx HR HP HV. unfold s_visit. rewrite rmem by auto. destruct (mem x vis).
    { split; [reflexivity|]. intros ? ? E. injection E as <- <-. auto. }
    rewrite (Hd (Hq Hx)), (Hd' Hx). cbn [obind]. rewrite rh_full, rh_peek.
    assert (Hg : good (f (q x), x)) by (split; auto).
    assert (EI : insert_by key_le (f (q x), q x) (map rk pq) = map rk (insert_by key_le (f (q x), x) pq)) by (now rewrite <- rk_insert).
    assert (HV' : Forall (fun y => y < n) (x :: vis)) by (constructor; auto).
    pose proof (good_insert Hg HP) as HI.
    destruct (msh_is_full res); cbn [negb].
    - destruct (msh_peek res) as [p|]; cbn [option_map ounwrap obind omap]; [|split; [reflexivity|discriminate]].
      cbn [rk fst]. destruct (f (q x) <? fst p)%Z; cbn [fst snd map]; rewrite ?EI; (split; [reflexivity|]);
        intros ? ? E; injection E as <- <-; auto.
    - cbn [obind omap fst snd map]. rewrite EI. split; [reflexivity|]. intros ? ? E; injection E as <- <-; auto.
  Qed.

  Lemma rvisits res row : forall pq vis, Forall (fun x => x < n) row -> Forall good (hs res) -> Forall good pq -> Forall (fun y => y < n) vis ->
    ofold (s_visit dist (rh res)) (map q row) (map rk pq, map q vis) =
      omap (fun r => (map rk (fst r), map q (snd r))) (ofold (s_visit dist' res) row (pq, vis)) /\
    forall pq' vis', ofold (s_visit dist' res) row (pq, vis) = Ok (pq', vis') -> Forall good pq' /\ Forall (fun y => y < n) vis'.
  Proof.
    induction row as [|x row IH]; intros pq vis HR HH HP HV; cbn [map ofold].
    - split; [reflexivity|]. intros ? ? E; injection E as <- <-; auto.
    - destruct (@rvisit res x pq vis (Forall_inv HR) HH HP HV) as [-> Hg].
      destruct (s_visit dist' res (pq, vis) x) as [[pq1 vis1]|e]; cbn [omap obind fst snd]; [|split; [reflexivity|discriminate]].
      destruct (Hg _ _ eq_refl) as [G1 G2]. apply IH; auto. apply (Forall_inv_tail HR).
  Qed.

  Lemma rloop fuel : forall st, gst st ->
    s_loop fuel nbrs dist (rst st) = omap (map rk) (s_loop fuel nbrs' dist' st) /\
    forall l, s_loop fuel nbrs' dist' st = Ok l -> Forall good l.
  Proof.
    induction fuel as [|fuel IH]; intros st (HH & HP & HV); cbn [s_loop]; [split; [reflexivity|discriminate]|].
    assert (EP : s_pop (rst st) = omap (option_map (fun r => (rk (fst r), rst (snd r)))) (s_pop st) /\
       forall k st', s_pop st = Ok (Some (k, st')) -> good k /\ gst st').
    { unfold s_pop. cbn [rst s_pq s_res s_vis]. destruct (s_pq st) as [|[d x] pq] eqn:Epq; cbn [map]; [split; [reflexivity|discriminate]|].
      cbn [rk fst snd]. rewrite rh_full, rh_peek.
      assert (Hgs : good (d, x) /\ gst (mkSst (s_res st) pq (s_vis st))).
      { split; [apply (Forall_inv HP)|]. split; [auto|]. split; [apply (Forall_inv_tail HP)|auto]. }
      destruct (msh_is_full (s_res st)).
      - destruct (msh_peek (s_res st)) as [p|]; cbn [option_map ounwrap obind omap]; [|split; [reflexivity|discriminate]].
        cbn [rk fst]. destruct (fst p <? d)%Z; (split; [reflexivity|]); [discriminate|].
        intros k st' E. injection E as <- <-. exact Hgs.
      - split; [reflexivity|]. intros k st' E. injection E as <- <-. exact Hgs. }
    destruct EP as [-> Hg]. destruct (s_pop st) as [[[k st']|]|e]; cbn [omap obind option_map fst snd].
    - destruct (Hg _ _ eq_refl) as [Hk (HH' & HP' & HV')]. cbn [rk snd]. destruct (Hnb' (proj1 Hk)) as [E' HF]. rewrite (Hnb (proj1 Hk)), E'. cbn [obind].
      unfold s_expand. cbn [rst s_res s_pq s_vis].
      destruct (rh_push HH' Hk) as [-> Hgh]. 
      destruct (msh_push key_le (s_res st') k) as [[h b]|e]; cbn [omap obind fst snd]; [|split; [reflexivity|discriminate]].
      specialize (Hgh _ _ eq_refl). destruct (@rvisits h (nb' (snd k)) (s_pq st') (s_vis st')) as [-> Hgv]; auto.
      destruct (ofold (s_visit dist' h) (nb' (snd k)) (s_pq st', s_vis st')) as [[pq1 vis1]|e]; cbn [omap obind fst snd]; [|split; [reflexivity|discriminate]].
      destruct (Hgv _ _ eq_refl) as [G1 G2]. apply (IH (mkSst h pq1 vis1)). split; auto.
    - split; [reflexivity|]. intros l E. injection E as <-. exact HH.
    - split; [reflexivity|discriminate].
  Qed.

  Definition rres (r : nat * Z) : nat * Z := (q (fst r), snd r).

  Lemma sfn_renamed fuel ep ms : ep < n ->
    search_for_neighbors fuel nbrs dist (q ep) ms = omap (map rres) (search_for_neighbors fuel nbrs' dist' ep ms) /\
    forall l, search_for_neighbors fuel nbrs' dist' ep ms = Ok l -> Forall (fun r => fst r < n) l.
  Proof.
    intros Hep. unfold search_for_neighbors, s_init. rewrite (Hd (Hq Hep)), (Hd' Hep). cbn [obind].
    destruct (@rloop fuel (mkSst (msh_new ms) [(f (q ep), ep)] [ep])) as [E Hg].
    { split; [constructor|]. split; repeat constructor; auto. }
    change (rst (mkSst (msh_new ms) [(f (q ep), ep)] [ep])) with (mkSst (@msh_new key ms) [(f (q ep), q ep)] [q ep]) in E. rewrite E.
    destruct (s_loop fuel nbrs' dist' (mkSst (msh_new ms) [(f (q ep), ep)] [ep])) as [l|e]; cbn [omap obind]; [|split; [reflexivity|discriminate]].
    split.
    - f_equal. rewrite !map_map. reflexivity.
    - intros l' El. injection El as <-. specialize (Hg _ eq_refl). rewrite Forall_map. eapply Forall_impl; [|exact Hg]. intros k [H _]. exact H.
  Qed.
End Sim.

(** ** a whole index *)
Lemma rename_graph_nth p r G i : nth_error (rename_graph p r G) i =
  option_map (fun g => map (fun x => rename_row r (nth x g [])) (firstn (length g) p)) (nth_error G i).
Proof. apply nth_error_map. Qed.

Section Ix.
  Variables (G : list (list (list N))) (p r : list nat).
  Hypothesis HG : graph_ok G.
  Hypothesis HK : keeps_layers G p.
  Hypothesis Hne : G <> [].
  Hypothesis Hr : inverse (length (last G [])) p r.

  Lemma layer_perm i g : nth_error G i = Some g ->
    length g <= length (last G []) /\ (forall x, x < length g -> nth x p 0 < length g) /\
    (forall x y, x < length g -> y < length g -> nth x p 0 = nth y p 0 -> x = y) /\
    (forall y, y < length g -> nth y r 0 < length g /\ nth (nth y r 0) p 0 = y) /\
    (forall x, x < length g -> nth_error (firstn (length g) p) x = Some (nth x p 0)) /\ length (firstn (length g) p) = length g.
  Proof.
    intros Hi. pose proof (layers_len_pos HG Hi) as Hle. pose proof (keeps_layers_nth HK Hi) as HP.
    destruct (perm_seq_nth _ HP) as (HL & Hlt & Hinj & Hsur).
    split; [auto|]. split; [|split; [|split; [|split]]].
    - intros x Hx. specialize (Hlt x Hx). now rewrite nth_firstn_lt in Hlt.
    - intros x y Hx Hy E. apply Hinj; auto. now rewrite !nth_firstn_lt.
    - intros y Hy. split; [exact (inverse_le (proj1 HK) Hr Hle HP Hy)|]. apply Hr. lia.
    - intros x Hx. exact (nth_error_firstn_perm (proj1 HK) Hle Hx).
    - auto.
  Qed.

  Lemma rename_layer_len i g : nth_error G i = Some g ->
    nth_error (rename_graph p r G) i = Some (map (fun x => rename_row r (nth x g [])) (firstn (length g) p)) /\
    length (map (fun x => rename_row r (nth x g [])) (firstn (length g) p)) = length g.
  Proof. intros Hi. rewrite rename_graph_nth, Hi, map_length. split; auto. apply (layer_perm Hi). Qed.

  Lemma rename_last_len : length (last (rename_graph p r G) []) = length (last G []).
  Proof.
    assert (Hne' : rename_graph p r G <> []) by (unfold rename_graph; destruct G; [congruence|discriminate]).
    pose proof (last_nth Hne') as H1. pose proof (last_nth Hne) as H2.
    destruct (rename_layer_len H2) as [H3 H4]. unfold rename_graph in H1 at 2. rewrite map_length, H3 in H1.
    injection H1 as H1. rewrite <- H1. exact H4.
  Qed.

  Lemma rename_graph_ok : graph_ok (rename_graph p r G).
  Proof.
    split.
    - rewrite Forall_forall. intros g' Hg'. unfold rename_graph in Hg'. apply in_map_iff in Hg' as (g & <- & Hg).
      apply In_nth_error in Hg as (i & Hi). destruct (layer_perm Hi) as (Hle & H1 & H2 & H3 & H4 & H5).
      destruct (graph_ok_nth HG Hi) as [Hgne Hgl].
      split.
      + intros E. apply (f_equal (@length _)) in E. rewrite map_length, H5 in E. destruct g; [congruence|discriminate].
      + rewrite map_length, H5. rewrite Forall_map, Forall_forall. intros x Hx. apply In_nth_error in Hx as (j & Hj).
        assert (Hjl : j < length g) by (rewrite <- H5; apply nth_error_Some; congruence).
        rewrite H4 in Hj by auto. injection Hj as <-. unfold rename_row. rewrite Forall_map, Forall_forall. intros y Hy.
        rewrite Nat2N.id. apply H3. rewrite Forall_forall in Hgl. specialize (Hgl (nth (nth j p 0) g [])).
        rewrite Forall_forall in Hgl. apply Hgl; auto. apply nth_In. auto.
    - intros i j g' h' Hi Hj Hij. rewrite rename_graph_nth in Hi, Hj.
      destruct (nth_error G i) as [g|] eqn:Ei; [|discriminate]. destruct (nth_error G j) as [h|] eqn:Ej; [|discriminate].
      cbn [option_map] in *. injection Hi as <-. injection Hj as <-. rewrite !map_length.
      destruct (layer_perm Ei) as (_ & _ & _ & _ & _ & ->). destruct (layer_perm Ej) as (_ & _ & _ & _ & _ & ->).
      destruct HG as [_ H]. now apply (H i j).
  Qed.

  Lemma rename_storable : storable G -> storable (rename_graph p r G).
  Proof.
    intros [H1 H2]. split; [|now rewrite rename_last_len].
    rewrite Forall_forall. intros g' Hg'. unfold rename_graph in Hg'. apply in_map_iff in Hg' as (g & <- & Hg).
    rewrite Forall_map, Forall_forall. intros x _. unfold rename_row. rewrite map_length.
    rewrite Forall_forall in H1. specialize (H1 _ Hg). rewrite Forall_forall in H1.
    destruct (Nat.lt_ge_cases x (length g)) as [Hx|Hx]; [apply H1; now apply nth_In|].
    rewrite nth_overflow by auto. cbn. lia.
  Qed.

  (** neighbours of the renamed index *)
  Lemma renamed_nbrs m L L' i g x : index_shows m L G -> index_shows m L' (rename_graph p r G) ->
    nth_error G i = Some g -> x < length g ->
    get_neighbors m L (nth x p 0) i = Ok (nb_of m L i (nth x p 0)) /\
    get_neighbors m L' x i = Ok (nb_of m L' i x) /\ Forall (fun y => y < length g) (nb_of m L' i x) /\
    Permutation (map (fun y => nth y p 0) (nb_of m L' i x)) (nb_of m L i (nth x p 0)).
  Proof.
    intros HS HS' Hi Hx. destruct (layer_perm Hi) as (Hle & H1 & H2 & H3 & H4 & H5).
    destruct (rename_layer_len Hi) as [Hi' HL'].
    destruct (layer_bridge HS Hi (graph_ok_nth HG Hi)) as [Hb _].
    destruct (layer_bridge HS' Hi' (graph_ok_nth rename_graph_ok Hi')) as [Hb' _]. rewrite HL' in Hb'.
    destruct (Hb _ (H1 _ Hx)) as [E1 HF1]. destruct (Hb' _ Hx) as [E2 HF2]. split; auto. split; auto. split; auto.
    destruct (nth_error g (nth x p 0)) as [ns|] eqn:En; [|apply nth_error_None in En; specialize (H1 _ Hx); lia].
    destruct (proj2 (proj2 HS _ _ Hi) _ _ En) as (ns1 & A1 & P1).
    destruct (proj2 (proj2 HS' _ _ Hi') x (rename_row r ns)) as (ns2 & A2 & P2).
    { rewrite nth_error_map, H4 by auto. cbn [option_map]. now rewrite (nth_error_nth _ _ [] En). }
    unfold nb_of. rewrite A1, A2. etransitivity; [apply Permutation_map; exact P2|]. etransitivity; [|symmetry; exact P1].
    unfold rename_row. rewrite !map_map. apply Permutation_refl'. apply map_ext_in. intros y Hy. rewrite Nat2N.id.
    apply H3. destruct (graph_ok_nth HG Hi) as [_ Hgl]. rewrite Forall_forall in Hgl. specialize (Hgl ns (nth_error_In _ _ En)).
    rewrite Forall_forall in Hgl. auto.
  Qed.

  Lemma index_renamed m L L' : index_shows m L G -> index_shows m L' (rename_graph p r G) -> renamed m L L' p.
  Proof.
    intros HS HS'. split.
    - rewrite (proj1 HS), (proj1 HS'). unfold rename_graph. apply map_length.
    - intros i Hi. rewrite (proj1 HS) in Hi. destruct (nth_error G i) as [g|] eqn:Eg; [|apply nth_error_None in Eg; lia].
      destruct (rename_layer_len Eg) as [Hi' HL']. exists (length g). split; [apply (proj2 HS _ _ Eg)|]. split.
      + rewrite <- HL'. apply (proj2 HS' _ _ Hi').
      + intros x Hx. destruct (renamed_nbrs HS HS' Eg Hx) as (E1 & E2 & HF & HP). eauto 8.
  Qed.

  (** a renamed index shows the renamed graph *)
  Lemma renamed_shows m L L' : index_shows m L G -> renamed m L L' p -> index_shows m L' (rename_graph p r G).
  Proof.
    intros HS [HL HRn]. split.
    - rewrite HL, (proj1 HS). unfold rename_graph. now rewrite map_length.
    - intros i g' Hi. rewrite rename_graph_nth in Hi. destruct (nth_error G i) as [g|] eqn:Eg; [|discriminate].
      cbn [option_map] in Hi. injection Hi as <-.
      destruct (layer_perm Eg) as (Hle & H1 & H2 & H3 & H4 & H5).
      assert (Hil : i < layers_len L) by (rewrite (proj1 HS); apply nth_error_Some; congruence).
      destruct (HRn i Hil) as (len & E1 & E2 & Hx). destruct (proj2 HS _ _ Eg) as [E3 Hj]. rewrite E3 in E1. injection E1 as <-.
      rewrite map_length, H5. split; auto. intros x ns Hns. rewrite nth_error_map in Hns.
      destruct (nth_error (firstn (length g) p) x) as [y|] eqn:Ey; [|discriminate]. cbn [option_map] in Hns. injection Hns as <-.
      assert (Hxl : x < length g) by (rewrite <- H5; apply nth_error_Some; congruence).
      rewrite H4 in Ey by auto. injection Ey as <-. destruct (Hx x Hxl) as (ns & ns' & A1 & A2 & A4 & A3).
      exists ns'. split; auto.
      destruct (nth_error g (nth x p 0)) as [row|] eqn:En; [|apply nth_error_None in En; specialize (H1 _ Hxl); lia].
      rewrite (nth_error_nth _ _ [] En). destruct (Hj _ _ En) as (ns2 & B1 & B2). rewrite A1 in B1. injection B1 as <-.
      assert (Hrow : forall y, In y ns -> y < length g).
      { intros y Hy. apply (Permutation_in _ B2) in Hy. apply in_map_iff in Hy as (z & <- & Hz).
        destruct (graph_ok_nth HG Eg) as [_ Hgl]. rewrite Forall_forall in Hgl. specialize (Hgl _ (nth_error_In _ _ En)).
        rewrite Forall_forall in Hgl. auto. }
      assert (Hback : map (fun y => nth y r 0) (map (fun y => nth y p 0) ns') = ns').
      { rewrite map_map. rewrite <- (map_id ns') at 2. apply map_ext_in. intros y Hy.
        assert (Hyp : nth y p 0 < length g). { apply Hrow. apply (Permutation_in _ A3). apply in_map_iff. eauto. }
        rewrite Forall_forall in A4. specialize (A4 _ Hy). apply Hr. lia. }
      rewrite <- Hback. etransitivity; [apply Permutation_map; exact A3|]. etransitivity; [apply Permutation_map; exact B2|].
      unfold rename_row. rewrite !map_map. apply Permutation_refl'. apply map_ext. intros z. now rewrite Nat2N.id.
  Qed.

  Lemma last_rename : nth_error (rename_graph p r G) (length G - 1) = Some (last (rename_graph p r G) []).
  Proof.
    assert (Hne' : rename_graph p r G <> []) by (unfold rename_graph; destruct G; [congruence|discriminate]).
    pose proof (last_nth Hne') as H1. unfold rename_graph in H1 at 2. now rewrite map_length in H1.
  Qed.

  Lemma edge_renamed x y : y < length (last G []) -> edge (last G []) (nth x p 0) y -> x < length (last G []) -> edge (last (rename_graph p r G) []) x (nth y r 0).
  Proof.
    intros Hy (ns & En & Hin) Hx. pose proof last_rename as HLr. rewrite rename_graph_nth, (last_nth Hne) in HLr. cbn [option_map] in HLr.
    injection HLr as HLr. destruct (layer_perm (last_nth Hne)) as (_ & _ & _ & _ & H4 & _).
    exists (rename_row r ns). rewrite <- HLr. rewrite nth_error_map, H4 by auto. cbn [option_map]. rewrite (nth_error_nth _ _ [] En). split; auto.
    unfold rename_row. apply in_map_iff. exists (N.of_nat y). rewrite Nat2N.id. auto.
  Qed.

  Lemma reach_renamed : (forall x y, x < length (last G []) -> y < length (last G []) -> reach (last G []) x y) ->
    forall x y, x < length (last G []) -> y < length (last G []) -> reach (last (rename_graph p r G) []) x y.
  Proof.
    intros Hc x y Hx Hy. destruct (layer_perm (last_nth Hne)) as (_ & H1 & H2 & H3 & H4 & H5).
    assert (HA : forall z, reach (last G []) (nth x p 0) z -> z < length (last G []) /\ reach (last (rename_graph p r G) []) x (nth z r 0)).
    { induction 1 as [|z w Hz [IH1 IH2] He].
      - split; [auto|]. destruct (H3 _ (H1 _ Hx)) as [A1 A2]. rewrite (H2 _ _ A1 Hx A2). constructor.
      - assert (Hw : w < length (last G [])).
        { destruct He as (ns & En & Hin). destruct (graph_ok_nth HG (last_nth Hne)) as [_ Hgl]. rewrite Forall_forall in Hgl.
          specialize (Hgl _ (nth_error_In _ _ En)). rewrite Forall_forall in Hgl. specialize (Hgl _ Hin). now rewrite Nat2N.id in Hgl. }
        split; auto. econstructor; [exact IH2|]. destruct (H3 _ IH1) as [B1 B2]. apply edge_renamed; auto. now rewrite B2. }
    destruct (HA (nth y p 0) (Hc _ _ (H1 _ Hx) (H1 _ Hy))) as [_ HR].
    destruct (H3 _ (H1 _ Hy)) as [A1 A2]. now rewrite (H2 _ _ A1 Hy A2) in HR.
  Qed.

  Section Search.
    Variables (m : mode) (L L' : layers) (dist dist' : nat -> outcome Z) (f : nat -> Z) (fuel : nat).
    Hypothesis HS : index_shows m L G.
    Hypothesis HS' : index_shows m L' (rename_graph p r G).
    Hypothesis Hd : dist_is dist f (length (last G [])).
    Hypothesis Hd' : forall x, x < length (last G []) -> dist' x = dist (nth x p 0).
    Hypothesis Hties : forall x y, x < length (last G []) -> y < length (last G []) -> f x = f y -> x = y.
    Hypothesis Hfuel : length (last G []) < fuel.

    Definition rid (x : nat) : nat := nth x p 0.

    Lemma layer_renamed i g ep ms : nth_error G i = Some g -> ep < length g ->
      search_for_neighbors fuel (fun j => get_neighbors m L j i) dist (rid ep) ms =
        omap (map (rres rid)) (search_for_neighbors fuel (fun j => get_neighbors m L' j i) dist' ep ms) /\
      forall l, search_for_neighbors fuel (fun j => get_neighbors m L' j i) dist' ep ms = Ok l -> Forall (fun x => fst x < length g) l.
    Proof.
      intros Hi Hep. destruct (layer_perm Hi) as (Hle & H1 & H2 & H3 & H4 & H5).
      assert (Hdg : forall x, x < length g -> dist x = Ok (f x)) by (intros; apply Hd; lia).
      assert (Hdg' : forall x, x < length g -> dist' x = Ok (f (rid x))).
      { intros x Hx. rewrite Hd' by lia. apply Hdg. now apply H1. }
      set (nbr1 := fun y => Ok (map rid (nb_of m L' i (nth y r 0)))).
      assert (E : search_for_neighbors fuel (fun j => get_neighbors m L j i) dist (rid ep) ms =
                  search_for_neighbors fuel nbr1 dist (rid ep) ms).
      { apply (@sfn_same (length g) f dist Hdg (fun j => get_neighbors m L j i) nbr1 (nb_of m L i) (fun y => map rid (nb_of m L' i (nth y r 0)))).
        - intros x Hx. destruct (layer_bridge HS Hi (graph_ok_nth HG Hi)) as [Hb _]. auto.
        - intros y Hy. split; [reflexivity|]. destruct (H3 y Hy) as [Hy1 Hy2].
          destruct (renamed_nbrs HS HS' Hi Hy1) as (_ & _ & HF & _). rewrite Forall_map. eapply Forall_impl; [|exact HF]. cbn. intros z Hz. now apply H1.
        - intros y z Hy. destruct (H3 y Hy) as [Hy1 Hy2]. destruct (renamed_nbrs HS HS' Hi Hy1) as (_ & _ & _ & HP). rewrite Hy2 in HP.
          split; intros Hz; [apply (Permutation_in _ (Permutation_sym HP))|apply (Permutation_in _ HP)]; exact Hz.
        - now apply H1. }
      rewrite E.
      apply (@sfn_renamed (length g) rid f) with (nb' := nb_of m L' i); auto.
      - intros x y Hx Hy. apply Hties; lia.
      - intros x Hx. destruct (renamed_nbrs HS HS' Hi Hx) as (_ & E2 & HF & _). auto.
      - intros x Hx. unfold nbr1. do 3 f_equal. assert (Hpx := H1 _ Hx). destruct (H3 _ Hpx) as [Hy1 Hy2].
        apply H2; auto.
    Qed.

    Hypothesis H0 : nth 0 p 0 = 0.

    Lemma entry_renamed k : k < length G ->
      exists ep, find_entrypoint fuel (map (fun i j => get_neighbors m L' j i) (seq 0 k)) dist' = Ok ep /\
        find_entrypoint fuel (map (fun i j => get_neighbors m L j i) (seq 0 k)) dist = Ok (rid ep) /\
        forall g, nth_error G k = Some g -> ep < length g.
    Proof.
      induction k as [|k IH]; intros Hk.
      - exists 0. cbn [seq map find_entrypoint ofold]. unfold find_entrypoint. cbn [ofold]. split; auto. split; [unfold rid; now rewrite H0|].
        intros g Hg. destruct (graph_ok_nth HG Hg) as [Hgne _]. destruct g; [congruence|cbn; lia].
      - destruct IH as (ep & E' & E & Hlt); [lia|]. unfold find_entrypoint in *.
        rewrite !seq_S, !map_app, !ofold_app, E, E'. cbn [obind map ofold Nat.add].
        destruct (nth_error G k) as [g|] eqn:Eg; [|apply nth_error_None in Eg; lia].
        specialize (Hlt _ eq_refl). destruct (layer_renamed 1 Eg Hlt) as [EL HF].
        destruct (layer_perm Eg) as (Hle & H1 & H2 & H3 & H4 & H5).
        destruct (@layer_search m L G dist f fuel HS HG Hd Hfuel k g (rid ep) 1 Eg (H1 _ Hlt)) as (l & El & HFin); [lia|].
        rewrite El in EL |- *. cbn [obind].
        destruct (search_for_neighbors fuel (fun j => get_neighbors m L' j k) dist' ep 1) as [l'|e]; cbn [omap obind] in EL; [|discriminate].
        specialize (HF _ eq_refl). injection EL as EL. destruct HFin as (F1 & F2 & F3 & F4 & F5 & F6 & a & F7 & F8).
        destruct l' as [|b l']; [destruct l; [destruct F7|discriminate]|]. destruct l as [|a' l]; [discriminate|].
        cbn [map index nth_error ounwrap obind]. cbn [map] in EL. injection EL as EL1 EL2.
        exists (fst b). split; auto. split.
        + unfold swap_key in *. cbn [fst snd] in *. now rewrite EL1.
        + intros h Hh. apply Forall_inv in HF. assert (length g <= length h); [|lia]. destruct HG as [_ Hm]. now apply (Hm k (S k)); auto.
    Qed.

    Lemma search_renamed ms nn :
      granne_search m fuel L dist ms nn = omap (map (rres rid)) (granne_search m fuel L' dist' ms nn).
    Proof.
      assert (Hne' : rename_graph p r G <> []) by (unfold rename_graph; destruct G; [congruence|discriminate]).
      assert (HLl : length (rename_graph p r G) = length G) by apply map_length.
      unfold granne_search, search_internal. rewrite (graphs_split HS Hne), (graphs_split HS' Hne'), HLl.
      destruct (@entry_renamed (length G - 1)) as (ep & E' & E & Hlt); [destruct G; [congruence|cbn; lia]|].
      rewrite E, E'. cbn [obind]. specialize (Hlt _ (last_nth Hne)).
      destruct (layer_renamed ms (last_nth Hne) Hlt) as [-> _].
      destruct (search_for_neighbors fuel (fun j => get_neighbors m L' j (length G - 1)) dist' ep ms) as [l|e]; cbn [omap obind]; auto.
      f_equal. apply firstn_map.
    Qed.
  End Search.
End Ix.
