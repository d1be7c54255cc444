(** * Proofs: indexes opened from the files of Python builders *)
From Coq Require Import ZArith Reals Lra Lia.
From Flocq Require Import Core IEEE754.BinarySingleNaN.
From Verif Require Import Base BaseFacts Bytes PBytes MSliceVec SSliceVec PFixed PVar MIndexIo SIndexIo PIndexIo PIndexCrash MSearch SSearch PSearchIx MBuild SBuild MReorder SReorder MFloat MFloatBits MAngular SAngular MLayerSize SLayerSize TLayerSize.
From Verif Require Import PF32 PCode PAngInt PAng PQuant PDense PDenseHist PBuilder PHistory PHistGen SPipeline TPipeline PReorder PReorderOrder TSlice TVectors MEmbed SEmbed PEmbed PEmbed2 PEmbed3 MParse SParse PParse PParse3 MPyIndex SPyIndex PPipelineB PPyIndex PPyWords PPyMain SPyMore PPyMore PPyKinds PIndexRe SPyReorder PPyLife.
Close Scope R_scope. Close Scope Z_scope.
Open Scope nat_scope.

(** ** Containers in general *)
Lemma g_ix {S E I} (V : benv S E) (gpush : S -> I -> outcome S) Holds ok l b m :
  sorts_by_dist (e_sort V) -> push_law (e_ops V) gpush -> ginv V gpush Holds ok l b ->
  k_nn (b_config b) <= 254 -> length (b_layers b) <= 25 ->
  exists G, ix m (FixWidth (b_layers b)) G /\ length G = length (b_layers b) /\ length (last G []) = builder_len b.
Proof.
  intros Hs Hp (Hr & _) Hk Hl. destruct (built_graph V gpush b m Hs Hp Hr) as (G & HS & HG & HL & Hll & Hle & HI).
  destruct (HI Hk) as [HI' Hst]. destruct (reached_fine Hs Hp Hr) as [(_ & [_ Hlen _] & _) _].
  exists G. split; [|auto]. constructor; [exact HI'|exact HG|exact Hst|lia|]. rewrite Hll.
  apply N.le_lt_trans with (N.of_nat (c_len (e_ops V) (b_elems b))); [lia|]. eapply N.le_lt_trans; [exact Hlen|]. reflexivity.
Qed.
Lemma g_reorder {S E} (C : cops S E) permute m fuel L G s : ix m L G -> 2 <= length G ->
  has_elements C s (length (last G [])) -> length (last G []) < fuel ->
  (forall p, is_perm (length (last G [])) p -> exists s', permute s p = Ok s') ->
  exists p L' G' s', reorder C permute m fuel (mkGranne L s) = Ok (mkGranne L' s', p) /\ permute s p = Ok s' /\ keeps_layers G p /\
    ix m L' G' /\ length G' = length G /\ length (last G' []) = length (last G []) /\ renamed m L L' p.
Proof.
  intros HI H2 Hel Hf HP. pose proof (ix_shows HI) as HS. assert (Hne : G <> []) by (intros ->; cbn in H2; lia).
  destruct (@compute_order_ok S E C s m L G fuel HS (ix_graph _ _ _ HI) (proj2 (ix_storable _ _ _ HI)) Hf Hel H2) as (p & Ep & HK & _).
  destruct (ix_reorder HI p HK Hne) as (L' & G' & EL & HI' & H1 & H3 & H4). destruct (HP p (proj1 HK)) as (s' & Es).
  exists p, L', G', s'. unfold reorder. rewrite Ep. cbn [obind gr_layers gr_elems]. rewrite EL. cbn [obind]. rewrite Es. cbn [obind]. auto 10.
Qed.
Lemma k_reorder {S K} permute (le : K -> K -> bool) keys m L G (s : S) : ix m L G -> G <> [] -> key_order le ->
  length keys = length (last G []) ->
  (forall p, is_perm (length (last G [])) p -> exists s', permute s p = Ok s') ->
  exists p L' G' s', reorder_by_keys permute le m (mkGranne L s) keys = Ok (mkGranne L' s', p) /\ permute s p = Ok s' /\ keeps_layers G p /\
    ix m L' G' /\ length G' = length G /\ length (last G' []) = length (last G []) /\ renamed m L L' p.
Proof.
  intros HI Hne Hle Hk HP. pose proof (ix_shows HI) as HS.
  destruct (@keys_order_ok K le keys Hle m L G HS (ix_graph _ _ _ HI) Hk Hne) as (p & Ep & HK & _).
  destruct (ix_reorder HI p HK Hne) as (L' & G' & EL & HI' & H1 & H3 & H4). destruct (HP p (proj1 HK)) as (s' & Es).
  exists p, L', G', s'. unfold reorder_by_keys. cbn [gr_layers gr_elems]. rewrite Ep. cbn [obind]. rewrite EL. cbn [obind]. rewrite Es. cbn [obind]. auto 10.
Qed.

(** ** Vectors *)
Section VecIx.
  Context {T : Type} (dist : list T -> list T -> outcome Z) (m : mode) (w : nat) (good : list T -> Prop).
  Hypothesis Hw : 0 < w.
  Hypothesis Hgood : forall x y, length x = w -> length y = w -> good x -> good y -> exists d, dist x y = Ok d.

  Lemma vix_search L G (l : list (list T)) s : ix m L G -> holds w l s -> vok w good l -> length (last G []) <= length l ->
    forall y fuel ms nn, length y = w -> good y -> length l < fuel -> 0 < ms ->
      exists res, granne_search m fuel L (fun i => c_dte (vectors_ops m dist) s i y) ms nn = Ok res /\
        length res <= Nat.min nn ms /\ StronglySorted closer res /\ NoDup (map fst res) /\
        (forall i d, In (i, d) res -> i < length (last G []) /\ exists x, nth_error l i = Some x /\ dist x y = Ok d) /\
        (0 < length (last G []) -> 0 < nn -> res <> []).
  Proof using Hw Hgood.
    intros HI Hh Hk Hle y fuel ms nn Ly Gy Hf Hms.
    assert (Hd : forall i, i < length (last G []) -> exists x d, nth_error l i = Some x /\ dist x y = Ok d /\ c_dte (vectors_ops m dist) s i y = Ok d).
    { intros i Hi. destruct (nth_error l i) as [x|] eqn:Ex; [|apply nth_error_None in Ex; lia]. unfold vok in Hk. rewrite Forall_forall in Hk.
      destruct (Hk x (nth_error_In _ _ Ex)) as [Lx Gx]. destruct (Hgood x y Lx Ly Gx Gy) as (d & Ed). exists x, d. split; [reflexivity|]. split; [exact Ed|].
      cbn [vectors_ops c_dte]. rewrite (v_get m w Hw l s i x Hh Ex). exact Ed. }
    destruct (ix_search HI (fun i => c_dte (vectors_ops m dist) s i y)
      (fun i => match c_dte (vectors_ops m dist) s i y with Ok d => d | Fail _ => 0%Z end) fuel ms nn) as (res & Er & R1 & R2 & R3 & R4 & R5); [|lia|exact Hms|].
    { intros i Hi. destruct (Hd i Hi) as (x & d & _ & _ & E). now rewrite E. }
    exists res. split; [exact Er|]. split; [exact R1|]. split; [exact R2|]. split; [exact R3|]. split; [|exact R5].
    intros i d Hin. destruct (R4 i d Hin) as [Hi Ei]. split; [exact Hi|]. destruct (Hd i Hi) as (x & d' & Hx & E1 & E2). exists x. split; [exact Hx|]. congruence.
  Qed.

  Lemma vix_reorder fuel L G (l : list (list T)) s : ix m L G -> 2 <= length G -> holds w l s -> vok w good l -> length (last G []) = length l ->
    length l < fuel ->
    exists p L' G' s', reorder (vectors_ops m dist) (vectors_permute m) m fuel (mkGranne L s) = Ok (mkGranne L' s', p) /\ keeps_layers G p /\
      ix m L' G' /\ length G' = length G /\ length (last G' []) = length (last G []) /\ renamed m L L' p /\ holds w (rearranged [] l p) s'.
  Proof using Hw Hgood.
    intros HI H2 Hh Hk Hl Hf.
    assert (Hne : G <> []) by (intros ->; cbn in H2; lia).
    assert (Hpos : 0 < length (last G [])) by (apply last_len_pos; [apply (ix_graph _ _ _ HI)|exact Hne]).
    destruct Hh as [Hh|[-> _]]; [|cbn in Hl; lia].
    assert (HP : forall p, is_perm (length (last G [])) p -> exists s', vectors_permute m s p = Ok s' /\ fw_is w (rearranged [] l p) s').
    { intros p Hp. rewrite Hl in Hp. destruct (@fw_permute_ok T w (length l) Hw p Hp l eq_refl m s Hh) as (s' & Es & Hs').
      exists s'. split; [unfold vectors_permute; rewrite (fw_is_len Hw Hh); exact Es|exact Hs']. }
    destruct (@g_reorder _ _ (vectors_ops m dist) (vectors_permute m) m fuel L G s HI H2) as (p & L' & G' & s' & E & Es & HK & HI' & E1 & E2 & HR).
    - intros i Hi. rewrite Hl in Hi. destruct (nth_error l i) as [x|] eqn:Ex; [|apply nth_error_None in Ex; lia]. exists x.
      unfold vok in Hk. rewrite Forall_forall in Hk. destruct (Hk x (nth_error_In _ _ Ex)) as [Lx Gx].
      split; [cbn [vectors_ops c_get]; exact (v_get m w Hw l s i x (or_introl Hh) Ex)|]. intros j Hj. rewrite Hl in Hj.
      destruct (nth_error l j) as [z|] eqn:Ez; [|apply nth_error_None in Ez; lia]. destruct (Hk z (nth_error_In _ _ Ez)) as [Lz Gz].
      destruct (Hgood z x Lz Lx Gz Gx) as (d & Ed). exists d. cbn [vectors_ops c_dte]. rewrite (v_get m w Hw l s j z (or_introl Hh) Ez). exact Ed.
    - lia.
    - intros p Hp. destruct (HP p Hp) as (s' & Es & _). eauto.
    - exists p, L', G', s'. split; [exact E|]. split; [exact HK|]. split; [exact HI'|]. split; [exact E1|]. split; [exact E2|]. split; [exact HR|].
      destruct (HP p (proj1 HK)) as (s2 & Es2 & H3). assert (s2 = s') by congruence. subst s2. now left.
  Qed.
End VecIx.

Lemma re_map {A B} (f : A -> B) (da : A) (db : B) l p : Forall (fun i => i < length l) p -> map f (rearranged da l p) = rearranged db (map f l) p.
Proof.
  intros H. unfold rearranged. rewrite map_map. apply map_ext_in. intros i Hi. rewrite Forall_forall in H. specialize (H i Hi).
  rewrite (nth_indep _ db (f da)) by (now rewrite map_length). symmetry. apply map_nth.
Qed.
Lemma re_Forall {A} (P : A -> Prop) d l p : Forall P l -> Forall (fun i => i < length l) p -> Forall P (rearranged d l p).
Proof.
  intros H Hp. unfold rearranged. apply Forall_map. eapply Forall_impl; [|exact Hp]. cbn beta. intros i Hi. rewrite Forall_forall in H. apply H. now apply nth_In.
Qed.

(** ** s_angular_int *)
Section i8.
  Context (fuel : nat) (usort : list (nat * Z) -> list (nat * Z)) (json : str -> option str).
  Hypothesis Hs : sorts_by_dist usort.
  Variable w : nat.
  Hypothesis Hw : (0 < Z.of_nat w <= 131071)%Z.
  Let Hw0 : 0 < w.
  Proof using Hw. lia. Qed.
  Let V := env_i8 Release fuel usort.
  Let dist := fun x y => coded (angular_int_dist Release x y).
  Let HV : e_ops V = vectors_ops Release dist := eq_refl.
  Let Hgood : forall x y, length x = w -> length y = w -> i8s x -> i8s y -> exists d, dist x y = Ok d.
  Proof using Hw.
    intros x z Hx Hz Gx Gz. destruct (@kernel_ok Release x z Gx Gz ltac:(congruence) ltac:(lia)) as (E & _).
    destruct (angular_int_ok E) as [d Ed]. exists (f32_code d). unfold dist. rewrite Ed. reflexivity.
  Qed.
  Definition i8_ix (values : list pyval) (k n : nat) (q : py_index) : Prop :=
    values <> [] /\ Forall (int_value w) values /\ length values < fuel /\
    exists Ls s G, q = PiI8 (mkGranne Ls s) /\ ix Release Ls G /\ length G = k /\ length (last G []) = n /\ n <= length values /\
      holds w (map (quant_of Release) values) s.
  Local Notation Searches := (searches fuel (fun x y d => py_compute_distance Release s_angular_int x y = Ok d) (int_value w) (fun x e => exists v k, x = PyFloats v /\ quantize Release v = Ok k /\ e = PeInts k) (fun x e => exists v k, x = PyFloats v /\ quantize Release v = Ok k /\ e = PeInts k)).

  Lemma i8_file values (s : fw Z) : values <> [] -> Forall (int_value w) values -> holds w (map (quant_of Release) values) s ->
    fw_from_bytes i8r (fst (fw_write i8r s)) = Ok s.
  Proof using Hs Hw Hw0.
    intros Hne Hv Hh. destruct Hh as [Hh|[E _]]; [|destruct values; [congruence|discriminate]].
    assert (H64 : fits64 w) by (unfold fits64; lia).
    destruct (C10_vectors_round_trip Z i8r (fun z => (-128 <= z < 128)%Z) i8r_ok w _ s Hw0 H64 Hh) as (v' & Ev & _ & Ev2); [|subst; exact Ev].
    destruct Hh as (_ & -> & _). apply Forall_concat. pose proof (i8_vok w values Hv) as Hk. eapply Forall_impl; [|exact Hk].
    cbn beta. intros x [_ Gx]. eapply Forall_impl; [|exact Gx]. cbn beta. intros z Hz. lia.
  Qed.

  Lemma i8_searches values k n q : i8_ix values k n q -> Searches q values n.
  Proof using Hs Hw Hw0.
    intros (Hne & Hfit & Hf & Ls & s & G & -> & HI & Hk & Hn & Hle & Hh). subst n. pose proof (i8_vok w values Hfit) as Hok.
    unfold searches. split; [exact (ix_len HI)|]. rewrite Forall_forall in Hfit.
    assert (Hget : forall i x, nth_error values i = Some x -> exists e, pi_get_element Release (PiI8 (mkGranne Ls s)) i = Ok e /\
       exists v k, x = PyFloats v /\ quantize Release v = Ok k /\ e = PeInts k).
    { intros i x Hx. destruct (i8_q w x (Hfit x (nth_error_In _ _ Hx))) as (_ & v & k1 & H1 & H2 & H3).
      exists (PeInts k1). split; [|eauto]. cbn [pi_get_element angular_int_ops vectors_ops c_get gr_elems].
      rewrite (v_get Release w Hw0 _ s i k1 Hh); [reflexivity|]. rewrite nth_error_map, Hx. cbn. now rewrite H3. }
    split; [exact Hget|]. split; [exact Hget|].
    intros y ms nn Hy Hms. destruct (i8_q w y Hy) as ([Lk Ik] & v & k1 & -> & Ek & E5). rewrite E5 in Lk, Ik.
    destruct (@vix_search _ dist Release w i8s Hw0 Hgood Ls G _ s HI Hh Hok ltac:(rewrite map_length; exact Hle) k1 fuel (fst (search_args ms nn)) (snd (search_args ms nn)) Lk Ik) as (res & Er & R1 & R2 & R3 & R4 & R5).
    { rewrite map_length. exact Hf. }
    { cbn. destruct ms as [[|ms]|]; [congruence| |]; cbn; lia. }
    exists res. split.
    { cbn [pi_search extract_floats obind]. rewrite Ek. cbn [obind]. unfold search_in. cbn [gr_layers gr_elems].
      rewrite <- Er. destruct ms, nn; reflexivity. }
    split; [exact R1|]. split; [exact R2|]. split; [exact R3|]. split; [|exact R5].
    intros i d Hin. destruct (R4 i d Hin) as (Hi & k' & Hk' & Ed). split; [exact Hi|]. rewrite nth_error_map in Hk'.
    destruct (nth_error values i) as [x|] eqn:Ex; [|discriminate]. cbn in Hk'. exists x. split; [reflexivity|].
    destruct (i8_q w x (Hfit x (nth_error_In _ _ Ex))) as (_ & v' & k2 & -> & E2 & E3).
    assert (E4 : quantize Release v' = Ok k') by congruence. unfold py_compute_distance.
    change (str_eqb s_angular_int s_angular) with false. change (str_eqb s_angular_int s_angular_int) with true. cbn iota.
    cbn [extract_floats obind]. rewrite E4. cbn [obind]. rewrite Ek. cbn [obind]. exact Ed.
  Qed.

  Lemma i8_ix_open values cfg k n p : i8_inv fuel usort w values cfg k n p -> i8_fits w values -> values <> [] -> length values < fuel ->
    k_nn cfg <= 254 -> k <= 25 -> exists index q, pb_save_index Release p = Ok index /\
      pi_open json index s_angular_int (pb_save_elements p) None None = Ok q /\ same_index Release (pb_layers p) (pi_layers q) /\ i8_ix values k n q.
  Proof using Hs Hw Hw0.
    intros (b & -> & HI & Hc & Hk & Hn) Hfit Hne Hf Hnn Hk25. rewrite <- Hc in Hnn. rewrite <- Hk in Hk25. subst n.
    destruct (g_ix V (@push_vec Z) (holds w) (vok w i8s) _ b Release Hs (v_law dist Release V HV) HI Hnn Hk25) as (G & HG & E1 & E2).
    destruct (ix_save HG) as (c & L' & Ew & El & Hsm & HG'). pose proof HI as (_ & Hh & _ & Hlb). rewrite map_length in Hlb.
    exists (cbuf c), (PiI8 (mkGranne L' (b_elems b))).
    split; [unfold pb_save_index; change (pb_layers (PbI8 b)) with (FixWidth (b_layers b)); rewrite Ew; reflexivity|].
    split.
    { unfold pi_open. change (etype_of s_angular_int) with (Some AngularInt). cbn iota beta zeta. cbn [pb_save_elements].
      rewrite (i8_file values _ Hne Hfit Hh). cbn [obind]. unfold granne_from_file. rewrite El. cbn [obind]. rewrite (ix_len HG'). reflexivity. }
    split; [exact Hsm|]. split; [exact Hne|]. split; [exact Hfit|]. split; [exact Hf|]. exists L', (b_elems b), G. split; [reflexivity|]. split; [exact HG'|]. split; [congruence|]. split; [exact E2|]. auto.
  Qed.

  Lemma i8_works values cfg k n p : i8_inv fuel usort w values cfg k n p -> i8_fits w values -> values <> [] -> length values < fuel ->
    k_nn cfg <= 254 -> k <= 25 ->
    works json fuel s_angular_int None None (fun x y d => py_compute_distance Release s_angular_int x y = Ok d) (int_value w) (fun x e => exists v k, x = PyFloats v /\ quantize Release v = Ok k /\ e = PeInts k) (fun x e => exists v k, x = PyFloats v /\ quantize Release v = Ok k /\ e = PeInts k) p values n.
  Proof using Hs Hw Hw0.
    intros HI Hfit Hne Hf Hnn Hk25. destruct (i8_ix_open _ _ _ _ _ HI Hfit Hne Hf Hnn Hk25) as (index & q & E1 & E2 & E3 & HX).
    destruct (i8_searches _ _ _ _ HX) as (S1 & S2 & S3 & S4). destruct HI as (b & -> & HI & Hc & Hk & Hn). subst n.
    pose proof HI as (_ & Hh & _ & Hlb). rewrite map_length in Hlb.
    split; [cbn [pb_num_elements angular_int_ops vectors_ops c_len]; rewrite (holds_len Hw0 Hh); apply map_length|].
    split; [exact (builder_index_len b)|]. split; [exact Hlb|]. exists index, q. auto 10.
  Qed.

  Lemma i8_reorders : reorders fuel i8_ix (fun k => 2 <= k).
  Proof using Hs Hw Hw0.
    intros values k n q (Hne & Hfit & Hf & Ls & s & G & -> & HI & Hk & Hn & Hle & Hh) En H2. subst k.
    pose proof (i8_vok w values Hfit) as Hok.
    destruct (@vix_reorder _ dist Release w i8s Hw0 Hgood fuel Ls G _ s HI H2 Hh Hok) as (p & L' & G' & s' & E & HK & HI' & E1 & E2 & HR & Hh').
    { rewrite map_length. lia. }
    { rewrite map_length. exact Hf. }
    exists (PiI8 (mkGranne L' s')), p.
    split; [cbn [pi_reorder]; change (angular_int_ops Release) with (vectors_ops Release dist); rewrite E; reflexivity|].
    assert (Hp : is_perm n p) by (rewrite <- Hn; exact (proj1 HK)). split; [exact Hp|].
    assert (Hrange : Forall (fun i => i < length values) p) by (rewrite <- En; now apply perm_range).
    split.
    - assert (Hlen : length (rearranged PyOther values p) = length values) by (unfold rearranged; rewrite map_length, (perm_len _ _ Hp); exact En).
      split; [destruct values; [congruence|]; destruct (rearranged PyOther (p0 :: values) p); [discriminate|discriminate]|].
      split; [now apply re_Forall|]. split; [lia|]. exists L', s', G'. split; [reflexivity|]. split; [exact HI'|]. split; [exact E1|]. split; [lia|]. split; [lia|].
      rewrite (re_map _ PyOther []) by exact Hrange. exact Hh'.
    - intros L0 o HR0. exact (renamed_trans Release L0 Ls L' o p G (ix_shows HI) (ix_graph _ _ _ HI) HK HR0 HR).
  Qed.

  Lemma i8_resaves : resaves json s_angular_int None None i8_ix (fun k => 2 <= k).
  Proof using Hs Hw Hw0.
    intros values k n q (Hne & Hfit & Hf & Ls & s & G & -> & HI & Hk & Hn & Hle & Hh) En H2. subst k.
    destruct (ix_save HI) as (c & L' & Ew & El & Hsm & HG').
    exists (cbuf c), (PiI8 (mkGranne L' s)).
    split; [unfold pi_save_index; change (pi_layers (PiI8 (mkGranne Ls s))) with Ls; rewrite Ew; reflexivity|].
    split.
    { unfold pi_open. change (etype_of s_angular_int) with (Some AngularInt). cbn iota beta zeta. cbn [pi_save_elements gr_elems].
      rewrite (i8_file values _ Hne Hfit Hh). cbn [obind]. unfold granne_from_file. rewrite El. cbn [obind]. rewrite (ix_len HG'). reflexivity. }
    split; [exact Hsm|]. split; [exact Hne|]. split; [exact Hfit|]. split; [exact Hf|]. exists L', s, G. auto 10.
  Qed.
End i8.

(** ** s_angular *)
Section f32k.
  Context (fuel : nat) (usort : list (nat * Z) -> list (nat * Z)) (json : str -> option str).
  Hypothesis Hs : sorts_by_dist usort.
  Variable w : nat.
  Hypothesis Hw0 : 0 < w.
  Hypothesis Hw : (Z.of_nat (rounds w) <= 10000)%Z.
  Let V := env_f32 Release fuel usort.
  Let dist := fun x y => coded (angular_dist x y).
  Let HV : e_ops V = vectors_ops Release dist := eq_refl.
  Let Hgood : forall x y, length x = w -> length y = w -> unit_or_zero x -> unit_or_zero y -> exists d, dist x y = Ok d.
  Proof using Hw.
    intros x z Hx Hz Gx Gz. eapply uz_dist; eauto.
  Qed.
  Definition f32k_ix (values : list pyval) (k n : nat) (q : py_index) : Prop :=
    values <> [] /\ Forall (float_value w) values /\ length values < fuel /\
    exists Ls s G, q = PiF32 (mkGranne Ls s) /\ ix Release Ls G /\ length G = k /\ length (last G []) = n /\ n <= length values /\
      holds w (map (fun x => angular_vector (floats_of x)) values) s.
  Local Notation Searches := (searches fuel (fun x y d => py_compute_distance Release s_angular x y = Ok d) (float_value w) (fun x e => exists v, x = PyFloats v /\ e = PeFloats (angular_vector v)) (fun x e => exists v, x = PyFloats v /\ e = PeFloats (angular_vector v))).

  Lemma f32k_file values (s : fw f32) : values <> [] -> Forall (float_value w) values -> holds w (map (fun x => angular_vector (floats_of x)) values) s ->
    fw_from_bytes f32r (fst (fw_write f32r s)) = Ok s.
  Proof using Hs Hw Hw0.
    intros Hne Hv Hh. destruct Hh as [Hh|[E _]]; [|destruct values; [congruence|discriminate]].
    assert (H64 : fits64 w) by (now apply rounds_fits).
    destruct (C10_vectors_round_trip f32 f32r (fun _ => True) f32r_ok w _ s Hw0 H64 Hh) as (v' & Ev & _ & Ev2); [|subst; exact Ev].
    destruct Hh as (_ & -> & _). apply Forall_concat. pose proof (f32k_vok w values Hv) as Hk. eapply Forall_impl; [|exact Hk].
    cbn beta. intros x [_ Gx]. apply Forall_forall. auto.
  Qed.

  Lemma f32k_searches values k n q : f32k_ix values k n q -> Searches q values n.
  Proof using Hs Hw Hw0.
    intros (Hne & Hfit & Hf & Ls & s & G & -> & HI & Hk & Hn & Hle & Hh). subst n. pose proof (f32k_vok w values Hfit) as Hok.
    unfold searches. split; [exact (ix_len HI)|]. rewrite Forall_forall in Hfit.
    assert (Hget : forall i x, nth_error values i = Some x -> exists e, pi_get_element Release (PiF32 (mkGranne Ls s)) i = Ok e /\
       exists v, x = PyFloats v /\ e = PeFloats (angular_vector v)).
    { intros i x Hx. destruct (f32k_q w x (Hfit x (nth_error_In _ _ Hx))) as (_ & v & ->).
      exists (PeFloats (angular_vector v)). split; [|eauto]. cbn [pi_get_element angular_ops vectors_ops c_get gr_elems].
      rewrite (v_get Release w Hw0 _ s i (angular_vector v) Hh); [reflexivity|]. rewrite nth_error_map, Hx. reflexivity. }
    split; [exact Hget|]. split; [exact Hget|].
    intros y ms nn Hy Hms. destruct (f32k_q w y Hy) as ([Lk Ik] & v & ->). cbn [floats_of] in Lk, Ik.
    destruct (@vix_search _ dist Release w unit_or_zero Hw0 Hgood Ls G _ s HI Hh Hok ltac:(rewrite map_length; exact Hle) (angular_vector v) fuel (fst (search_args ms nn)) (snd (search_args ms nn)) Lk Ik) as (res & Er & R1 & R2 & R3 & R4 & R5).
    { rewrite map_length. exact Hf. }
    { cbn. destruct ms as [[|ms]|]; [congruence| |]; cbn; lia. }
    exists res. split.
    { cbn [pi_search extract_floats obind]. unfold search_in. cbn [gr_layers gr_elems].
      rewrite <- Er. destruct ms, nn; reflexivity. }
    split; [exact R1|]. split; [exact R2|]. split; [exact R3|]. split; [|exact R5].
    intros i d Hin. destruct (R4 i d Hin) as (Hi & k' & Hk' & Ed). split; [exact Hi|]. rewrite nth_error_map in Hk'.
    destruct (nth_error values i) as [x|] eqn:Ex; [|discriminate]. cbn [option_map] in Hk'. exists x. split; [reflexivity|].
    destruct (f32k_q w x (Hfit x (nth_error_In _ _ Ex))) as (_ & v' & ->).
    assert (E4 : angular_vector v' = k') by (cbn [floats_of] in Hk'; congruence). unfold py_compute_distance.
    change (str_eqb s_angular s_angular) with true. cbn iota.
    cbn [extract_floats obind]. rewrite E4. exact Ed.
  Qed.

  Lemma f32k_ix_open values cfg k n p : f32k_inv fuel usort w values cfg k n p -> f32k_fits w values -> values <> [] -> length values < fuel ->
    k_nn cfg <= 254 -> k <= 25 -> exists index q, pb_save_index Release p = Ok index /\
      pi_open json index s_angular (pb_save_elements p) None None = Ok q /\ same_index Release (pb_layers p) (pi_layers q) /\ f32k_ix values k n q.
  Proof using Hs Hw Hw0.
    intros (b & -> & HI & Hc & Hk & Hn) Hfit Hne Hf Hnn Hk25. rewrite <- Hc in Hnn. rewrite <- Hk in Hk25. subst n.
    destruct (g_ix V (@push_vec f32) (holds w) (vok w unit_or_zero) _ b Release Hs (v_law dist Release V HV) HI Hnn Hk25) as (G & HG & E1 & E2).
    destruct (ix_save HG) as (c & L' & Ew & El & Hsm & HG'). pose proof HI as (_ & Hh & _ & Hlb). rewrite map_length in Hlb.
    exists (cbuf c), (PiF32 (mkGranne L' (b_elems b))).
    split; [unfold pb_save_index; change (pb_layers (PbF32 b)) with (FixWidth (b_layers b)); rewrite Ew; reflexivity|].
    split.
    { unfold pi_open. change (etype_of s_angular) with (Some Angular). cbn iota beta zeta. cbn [pb_save_elements].
      rewrite (f32k_file values _ Hne Hfit Hh). cbn [obind]. unfold granne_from_file. rewrite El. cbn [obind]. rewrite (ix_len HG'). reflexivity. }
    split; [exact Hsm|]. split; [exact Hne|]. split; [exact Hfit|]. split; [exact Hf|]. exists L', (b_elems b), G. split; [reflexivity|]. split; [exact HG'|]. split; [congruence|]. split; [exact E2|]. auto.
  Qed.

  Lemma f32k_works values cfg k n p : f32k_inv fuel usort w values cfg k n p -> f32k_fits w values -> values <> [] -> length values < fuel ->
    k_nn cfg <= 254 -> k <= 25 ->
    works json fuel s_angular None None (fun x y d => py_compute_distance Release s_angular x y = Ok d) (float_value w) (fun x e => exists v, x = PyFloats v /\ e = PeFloats (angular_vector v)) (fun x e => exists v, x = PyFloats v /\ e = PeFloats (angular_vector v)) p values n.
  Proof using Hs Hw Hw0.
    intros HI Hfit Hne Hf Hnn Hk25. destruct (f32k_ix_open _ _ _ _ _ HI Hfit Hne Hf Hnn Hk25) as (index & q & E1 & E2 & E3 & HX).
    destruct (f32k_searches _ _ _ _ HX) as (S1 & S2 & S3 & S4). destruct HI as (b & -> & HI & Hc & Hk & Hn). subst n.
    pose proof HI as (_ & Hh & _ & Hlb). rewrite map_length in Hlb.
    split; [cbn [pb_num_elements angular_ops vectors_ops c_len]; rewrite (holds_len Hw0 Hh); apply map_length|].
    split; [exact (builder_index_len b)|]. split; [exact Hlb|]. exists index, q. auto 10.
  Qed.

  Lemma f32k_reorders : reorders fuel f32k_ix (fun k => 2 <= k).
  Proof using Hs Hw Hw0.
    intros values k n q (Hne & Hfit & Hf & Ls & s & G & -> & HI & Hk & Hn & Hle & Hh) En H2. subst k.
    pose proof (f32k_vok w values Hfit) as Hok.
    destruct (@vix_reorder _ dist Release w unit_or_zero Hw0 Hgood fuel Ls G _ s HI H2 Hh Hok) as (p & L' & G' & s' & E & HK & HI' & E1 & E2 & HR & Hh').
    { rewrite map_length. lia. }
    { rewrite map_length. exact Hf. }
    exists (PiF32 (mkGranne L' s')), p.
    split; [cbn [pi_reorder]; change (angular_ops Release) with (vectors_ops Release dist); rewrite E; reflexivity|].
    assert (Hp : is_perm n p) by (rewrite <- Hn; exact (proj1 HK)). split; [exact Hp|].
    assert (Hrange : Forall (fun i => i < length values) p) by (rewrite <- En; now apply perm_range).
    split.
    - assert (Hlen : length (rearranged PyOther values p) = length values) by (unfold rearranged; rewrite map_length, (perm_len _ _ Hp); exact En).
      split; [destruct values; [congruence|]; destruct (rearranged PyOther (p0 :: values) p); [discriminate|discriminate]|].
      split; [now apply re_Forall|]. split; [lia|]. exists L', s', G'. split; [reflexivity|]. split; [exact HI'|]. split; [exact E1|]. split; [lia|]. split; [lia|].
      rewrite (re_map _ PyOther []) by exact Hrange. exact Hh'.
    - intros L0 o HR0. exact (renamed_trans Release L0 Ls L' o p G (ix_shows HI) (ix_graph _ _ _ HI) HK HR0 HR).
  Qed.

  Lemma f32k_resaves : resaves json s_angular None None f32k_ix (fun k => 2 <= k).
  Proof using Hs Hw Hw0.
    intros values k n q (Hne & Hfit & Hf & Ls & s & G & -> & HI & Hk & Hn & Hle & Hh) En H2. subst k.
    destruct (ix_save HI) as (c & L' & Ew & El & Hsm & HG').
    exists (cbuf c), (PiF32 (mkGranne L' s)).
    split; [unfold pi_save_index; change (pi_layers (PiF32 (mkGranne Ls s))) with Ls; rewrite Ew; reflexivity|].
    split.
    { unfold pi_open. change (etype_of s_angular) with (Some Angular). cbn iota beta zeta. cbn [pi_save_elements gr_elems].
      rewrite (f32k_file values _ Hne Hfit Hh). cbn [obind]. unfold granne_from_file. rewrite El. cbn [obind]. rewrite (ix_len HG'). reflexivity. }
    split; [exact Hsm|]. split; [exact Hne|]. split; [exact Hfit|]. split; [exact Hf|]. exists L', s, G. auto 10.
  Qed.
End f32k.
