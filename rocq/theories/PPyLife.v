(** * Proofs: lives of an opened index *)
From Coq Require Import ZArith Reals Lra Lia.
From Flocq Require Import Core IEEE754.BinarySingleNaN.
From Verif Require Import Base BaseFacts Bytes MSliceVec SSliceVec PFixed MIndexIo SIndexIo MSearch SSearch PSearchIx MBuild SBuild MReorder SReorder PReorder PReorderOrder PReorderSim TReorder PIndexRe MFloat MAngular SAngular PF32 MEmbed MParse MPyIndex SPyIndex SPyReorder.
Close Scope R_scope. Close Scope Z_scope.
Open Scope nat_scope.

(** ** Orders *)
Lemma re_seq {A} (d : A) l : rearranged d l (seq 0 (length l)) = l.
Proof. unfold rearranged. rewrite (map_nth_seq (fun x => x) d l). apply map_id. Qed.
Lemma re_re {A} (d : A) v o p : Forall (fun i => i < length o) p -> rearranged d (rearranged d v o) p = rearranged d v (rearranged 0 o p).
Proof.
  intros H. unfold rearranged. rewrite map_map. apply map_ext_in. intros i Hi. rewrite Forall_forall in H. specialize (H i Hi).
  rewrite (nth_indep _ d (nth 0 v d)) by (now rewrite map_length). apply (map_nth (fun j => nth j v d)).
Qed.
Lemma perm_range n p : is_perm n p -> Forall (fun i => i < n) p.
Proof. intros H. apply Forall_forall. intros i Hi. apply (Permutation_in _ H) in Hi. apply in_seq in Hi. lia. Qed.
Lemma perm_len n p : is_perm n p -> length p = n.
Proof. intros H. rewrite (Permutation_length H). apply seq_length. Qed.
Lemma perm_re n o p : is_perm n o -> is_perm n p -> is_perm n (rearranged 0 o p).
Proof.
  intros Ho Hp. unfold is_perm, rearranged. etransitivity; [apply Permutation_map; exact Hp|].
  rewrite <- (perm_len n o Ho) at 1. rewrite (map_nth_seq (fun x => x) 0 o), map_id. exact Ho.
Qed.

(** ** Renaming *)
Lemma renamed_refl m L G : index_shows m L G -> graph_ok G -> renamed m L L (seq 0 (length (last G []))).
Proof.
  intros HS HG. split; [reflexivity|]. intros i Hi. rewrite (proj1 HS) in Hi.
  destruct (nth_error G i) as [g|] eqn:Eg; [|apply nth_error_None in Eg; lia].
  destruct (proj2 HS i g Eg) as [El Hn]. exists (length g). split; [exact El|]. split; [exact El|].
  intros x Hx. pose proof (layers_len_pos HG Eg) as Hle. rewrite seq_nth by lia. cbn [Nat.add].
  destruct (layer_bridge HS Eg (graph_ok_nth HG Eg)) as [Hb _]. destruct (Hb x Hx) as [E HF]. exists (nb_of m L i x), (nb_of m L i x).
  split; [exact E|]. split; [exact E|]. split; [exact HF|].
  rewrite (map_ext_in (fun y => nth y (seq 0 (length (last G []))) 0) (fun y => y)); [now rewrite map_id|].
  intros y Hy. rewrite Forall_forall in HF. specialize (HF y Hy). apply seq_nth. lia.
Qed.
Lemma renamed_trans m L L' L'' p p' G' : index_shows m L' G' -> graph_ok G' -> keeps_layers G' p' ->
  renamed m L L' p -> renamed m L' L'' p' -> renamed m L L'' (rearranged 0 p p').
Proof.
  intros HS HG HK [H1 H2] [H1' H2']. split; [congruence|]. intros i Hi.
  destruct (H2 i Hi) as (len & E1 & E2 & Hx). destruct (H2' i ltac:(lia)) as (len' & E1' & E2' & Hx').
  assert (len' = len) by congruence. subst len'. exists len. split; [exact E1|]. split; [exact E2'|]. intros x Hxl.
  destruct (Hx' x Hxl) as (ns' & ns'' & N1 & N2 & NF & NP).
  assert (Hi' : i < length G') by (rewrite <- (proj1 HS); lia).
  destruct (nth_error G' i) as [g|] eqn:Eg; [|apply nth_error_None in Eg; lia].
  destruct (proj2 HS i g Eg) as [Eg2 _]. assert (Hlen : length g = len) by congruence.
  pose proof (layers_len_pos HG Eg) as Hle. pose proof (perm_len _ _ (proj1 HK)) as Hp'.
  assert (Hlt : forall y, y < len -> nth y p' 0 < len).
  { intros y Hy. pose proof (keeps_layers_nth HK Eg) as HP. rewrite Hlen in HP. apply perm_range in HP. rewrite Forall_forall in HP.
    rewrite <- (nth_firstn_lt p' (k := len) 0 Hy). apply HP. apply nth_In. rewrite firstn_length. lia. }
  destruct (Hx (nth x p' 0) (Hlt x Hxl)) as (ns & ns1 & M1 & M2 & MF & MP). assert (ns1 = ns') by congruence. subst ns1.
  assert (EN : forall y, y < len -> nth y (rearranged 0 p p') 0 = nth (nth y p' 0) p 0).
  { intros y Hy. unfold rearranged. rewrite (nth_indep _ 0 (nth 0 p 0)) by (rewrite map_length; lia). apply (map_nth (fun j => nth j p 0)). }
  exists ns, ns''. rewrite EN by exact Hxl. split; [exact M1|]. split; [exact N2|]. split; [exact NF|].
  rewrite <- MP. rewrite <- NP. rewrite map_map. rewrite (map_ext_in _ (fun y => nth (nth y p' 0) p 0)); [reflexivity|].
  intros y Hy. rewrite Forall_forall in NF. apply EN. auto.
Qed.
Lemma renamed_same m L L' L'' p : same_index m L' L'' -> renamed m L L' p -> renamed m L L'' p.
Proof.
  intros (G & HS & HS') [H1 H2]. split; [rewrite (proj1 HS'), <- (proj1 HS); exact H1|]. intros i Hi.
  destruct (H2 i Hi) as (len & E1 & E2 & Hx).
  assert (Hi' : i < length G) by (rewrite <- (proj1 HS); lia).
  destruct (nth_error G i) as [g|] eqn:Eg; [|apply nth_error_None in Eg; lia].
  destruct (proj2 HS i g Eg) as [Eg2 Hn]. destruct (proj2 HS' i g Eg) as [Eg3 Hn']. assert (Hlen : length g = len) by congruence.
  exists len. split; [exact E1|]. split; [congruence|]. intros x Hxl. destruct (Hx x Hxl) as (ns & ns' & N1 & N2 & NF & NP).
  destruct (nth_error g x) as [row|] eqn:Er; [|apply nth_error_None in Er; lia].
  destruct (Hn x row Er) as (a & Ea & Pa). destruct (Hn' x row Er) as (b & Eb & Pb). assert (a = ns') by congruence. subst a.
  assert (HP : Permutation b ns') by (now rewrite Pa, Pb).
  exists ns, b. split; [exact N1|]. split; [exact Eb|]. split; [now rewrite HP|]. now rewrite HP.
Qed.

(** ** Lives *)
Section Life.
  Context (fuel : nat) (json : str -> option str) (element_type : str) (embeddings : option (list N)) (words : option str).
  (** [Ix values k n q]: [q] holds [values], [n] indexed, in [k] layers *)
  Variable Ix : list pyval -> nat -> nat -> py_index -> Prop.
  Variable layered : nat -> Prop.
  Definition reorders : Prop := forall values k n q, Ix values k n q -> n = length values -> layered k ->
    exists q' p, pi_reorder Release fuel q = Ok (q', p) /\ is_perm n p /\ Ix (rearranged PyOther values p) k n q' /\
      forall L0 o, renamed Release L0 (pi_layers q) o -> renamed Release L0 (pi_layers q') (rearranged 0 o p).
  Definition resaves : Prop := forall values k n q, Ix values k n q -> n = length values -> layered k ->
    exists index q', pi_save_index Release q = Ok index /\
      pi_open json index element_type (pi_save_elements q) embeddings words = Ok q' /\
      same_index Release (pi_layers q) (pi_layers q') /\ Ix values k n q'.

  Lemma index_lives : reorders -> resaves -> forall steps values k q o L0, layered k -> Ix (rearranged PyOther values o) k (length values) q ->
    is_perm (length values) o -> renamed Release L0 (pi_layers q) o ->
    exists q' orders, index_life Release fuel json element_type embeddings words q steps = Ok (q', orders) /\
      length orders = length (filter (fun s => match s with Reorder => true | _ => false end) steps) /\ Forall (is_perm (length values)) orders /\
      let o' := fold_left (rearranged 0) orders o in
      is_perm (length values) o' /\ renamed Release L0 (pi_layers q') o' /\ Ix (rearranged PyOther values o') k (length values) q'.
  Proof using.
    intros Hre Hsv. induction steps as [|[|] steps IH]; intros values k q o L0 Hk HI Ho HR; cbn [index_life filter length].
    - exists q, []. cbn [fold_left]. split; [reflexivity|]. split; [reflexivity|]. split; [constructor|]. auto.
    - assert (Hl : length values = length (rearranged PyOther values o)) by (unfold rearranged; rewrite map_length; symmetry; now apply perm_len).
      destruct (Hre _ _ _ _ HI Hl Hk) as (q1 & p & E & Hp & HI1 & HR1). rewrite E. cbn [obind fst snd].
      rewrite re_re in HI1 by (rewrite (perm_len _ _ Ho); now apply perm_range).
      destruct (IH values k q1 (rearranged 0 o p) L0 Hk HI1 (perm_re _ _ _ Ho Hp) (HR1 _ _ HR)) as (q2 & os & E2 & Hlen & HF & Hrest).
      rewrite E2. cbn [obind fst snd]. exists q2, (p :: os). split; [reflexivity|]. split; [cbn [length]; now rewrite Hlen|]. split; [now constructor|exact Hrest].
    - assert (Hl : length values = length (rearranged PyOther values o)) by (unfold rearranged; rewrite map_length; symmetry; now apply perm_len).
      destruct (Hsv _ _ _ _ HI Hl Hk) as (index & q1 & E1 & E2 & Hs & HI1). rewrite E1. cbn [obind]. rewrite E2. cbn [obind].
      eapply IH; eauto. eapply renamed_same; eauto.
  Qed.
End Life.

(** ** Norms *)
Definition nneg (x : f32) : Prop :=
  match x with B754_nan => False | B754_infinity s => s = false | B754_finite s _ _ _ => s = false | B754_zero _ => True end.
Lemma nneg_of x : is_finite x = true -> (0 <= B2R x)%R -> nneg x.
Proof.
  destruct x as [s|s| |s mm e B]; cbn; auto; try discriminate. intros _ H. destruct s; [|reflexivity]. exfalso.
  assert (H2 : (F2R (Float radix2 (Z.neg mm) e) < 0)%R) by (apply F2R_lt_0; reflexivity). cbn in *. lra.
Qed.
Lemma nneg_R x : nneg x -> is_finite x = true -> (0 <= B2R x)%R.
Proof.
  destruct x as [s|s| |s mm e B]; cbn; intros H F; try discriminate; try lra. subst s. apply F2R_ge_0. cbn. lia.
Qed.
Lemma nneg_inf (x : f32) : B2SF x = SpecFloat.S754_infinity false -> nneg x.
Proof. destruct x; cbn; intros H; try discriminate. congruence. Qed.
Lemma nneg_square x : is_nan x = false -> nneg (f32_mul x x).
Proof.
  destruct (is_finite x) eqn:F.
  - intros _. pose proof (Bmult_correct 24 128 _ _ mode_NE x x) as H. unfold f32_mul.
    destruct (Rlt_bool _ _).
    + destruct H as (H1 & H2 & _). fold f32_mul in *; apply nneg_of; [rewrite H2, F; reflexivity|]. rewrite H1.
      rewrite <- rnd32_0 at 1. apply rnd32_le. apply Rle_0_sqr.
    + apply nneg_inf. rewrite H. now rewrite xorb_nilpotent.
  - destruct x as [s|s| |s mm e B]; cbn in *; try discriminate. intros _. now destruct s.
Qed.
Lemma nneg_add x y : nneg x -> nneg y -> nneg (f32_add x y).
Proof.
  intros Hx Hy. destruct (is_finite x) eqn:Fx.
  - destruct (is_finite y) eqn:Fy.
    + pose proof (Bplus_correct 24 128 _ _ mode_NE x y Fx Fy) as H. unfold f32_add.
      pose proof (nneg_R x Hx Fx) as Rx. pose proof (nneg_R y Hy Fy) as Ry.
      destruct (Rlt_bool _ _) eqn:Eo.
      * destruct H as (H1 & H2 & _). apply nneg_of; [exact H2|]. rewrite H1.
        rewrite <- rnd32_0 at 1. apply rnd32_le. lra.
      * destruct H as [H Hs]. apply nneg_inf. rewrite H.
        assert (Sx : Bsign x = false); [|now rewrite Sx].
        destruct x as [s|s| |s mm e B]; cbn in Hx, Fx |- *; try discriminate; [|exact Hx].
        cbn in Hs. destruct s; [|reflexivity]. exfalso.
        assert (Ry0 : B2R y = 0%R).
        { destruct y as [t|t| |t m2 e2 B2]; cbn in Hy, Fy, Hs |- *; try discriminate; try reflexivity; try congruence. }
        rewrite Ry0 in Eo. cbn [B2R] in Eo. rewrite Rplus_0_r, rnd32_0, Rabs_R0 in Eo.
        rewrite Rlt_bool_true in Eo by apply bpow_gt_0. discriminate.
    + destruct y as [s|s| |s mm e B]; cbn in *; try discriminate; try contradiction. subst s.
      destruct x as [t|t| |t m2 e2 B2]; cbn in *; try discriminate; reflexivity.
  - destruct x as [s|s| |s mm e B]; cbn in *; try discriminate; try contradiction. subst s.
    destruct y as [t|t| |t m2 e2 B2]; cbn in *; try contradiction; auto. subst t. reflexivity.
Qed.
Lemma norm_ok v : no_nan v -> exists z, f32_norm v = Ok z.
Proof.
  intros H. unfold f32_norm. set (acc := fold_left _ _ _).
  assert (HA : nneg acc).
  { unfold acc. assert (H0 : nneg f32_zero) by exact I. revert H0. generalize f32_zero. induction H as [|x v Hx _ IH]; intros a Ha; cbn [map fold_left]; [exact Ha|].
    apply IH. apply nneg_add; [exact Ha|now apply nneg_square]. }
  clearbody acc. unfold notnan. replace (is_nan (f32_sqrt acc)) with false; [eexists; reflexivity|]. symmetry.
  pose proof (Bsqrt_correct 24 128 _ _ mode_NE acc) as (_ & F & _). unfold f32_sqrt.
  destruct acc as [s|s| |s mm e B]; cbn in HA; try contradiction; subst; try reflexivity.
  revert F. destruct (Bsqrt mode_NE (B754_finite false mm e B)); cbn; congruence.
Qed.

Lemma key_le_order : key_order MPyIndex.key_le.
Proof.
  split.
  - intros x. induction x as [|a x IH]; intros [|b y]; cbn [MPyIndex.key_le]; auto. destruct (Nat.eqb_spec a b) as [->|Hn].
    + rewrite Nat.eqb_refl. apply IH.
    + destruct (Nat.eqb_spec b a); [congruence|]. destruct (Nat.ltb_spec a b); [now left|right]. apply Nat.ltb_lt. lia.
  - intros x. induction x as [|a x IH]; intros [|b y] [|c z]; cbn [MPyIndex.key_le]; auto; try discriminate.
    destruct (Nat.eqb_spec a b) as [->|Hn].
    + destruct (Nat.eqb_spec b c) as [->|Hc]; [apply IH|auto].
    + intros Hab. apply Nat.ltb_lt in Hab. destruct (Nat.eqb_spec b c) as [->|Hc].
      * intros _. destruct (Nat.eqb_spec a c); [congruence|]. now apply Nat.ltb_lt.
      * intros Hbc. apply Nat.ltb_lt in Hbc. destruct (Nat.eqb_spec a c); [lia|]. apply Nat.ltb_lt. lia.
Qed.
