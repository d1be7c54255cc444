(** * Proofs: indexes of texts opened from the files of Python builders *)
From Coq Require Import ZArith Reals Lra Lia.
From Flocq Require Import Core IEEE754.BinarySingleNaN.
From Verif Require Import Base BaseFacts Bytes PBytes MSliceVec SSliceVec PFixed PVar MIndexIo SIndexIo PIndexIo PIndexCrash MSearch SSearch PSearchIx MBuild SBuild MReorder SReorder MFloat MFloatBits MAngular SAngular MLayerSize SLayerSize TLayerSize.
From Verif Require Import PF32 PCode PAngInt PAng PQuant PDense PDenseHist PBuilder PHistory PHistGen SPipeline TPipeline PReorder PReorderOrder TSlice TVectors MEmbed SEmbed PEmbed PEmbed2 PEmbed3 MParse SParse PParse PParse3 MPyIndex SPyIndex PPipelineB PPyIndex PPyWords PPyMain SPyMore PPyMore PPyKinds PIndexRe SPyReorder PPyLife PPyIx.
Close Scope R_scope. Close Scope Z_scope.
Open Scope nat_scope.


(** ** Texts *)
Section words.
  Context (fuel : nat) (usort : list (nat * Z) -> list (nat * Z)) (json : str -> option str) (L : libm).
  Hypothesis Hs : sorts_by_dist usort.
  Variables (w : nat) (embs : list (list f32)) (ws : list str) (wfile : str) (vfile : list N).
  Hypothesis Hw0 : 0 < w.
  Hypothesis Hw : (Z.of_nat (rounds w) <= 10000)%Z.
  Hypothesis Hdim : Forall (fun v => length v = w) embs.
  Hypothesis Hembs : embs <> [].
  Hypothesis Hvf : vectors_file w embs vfile.
  Hypothesis Hnd : NoDup ws.
  Hypothesis Hlen0 : length ws <= length embs.
  Hypothesis H24 : (N.of_nat (length ws) <= 2 ^ 24)%N.
  Hypothesis Hwf : words_file json ws wfile.
  Let V := env_words Release fuel usort.
  Local Notation cfg_of o := (config_from L (options_config o)).
  Let HV : e_ops V = word_ops Release := eq_refl.
  Let Hd : dims w embs.
  Proof using Hw0 Hdim. split; auto. Qed.
  Let d := dict_of ws.
  Let conv := ids_of d.
  Let s0 := se_of w embs [].

  Hypothesis Hnan : Forall no_nan embs.
  Definition words_ix (values : list pyval) (k n : nat) (q : py_index) : Prop :=
    Forall (text_value w embs ws) values /\ length values < fuel /\ (N.of_nat (length values) < 4294967295)%N /\ wok w embs (map conv values) /\
    exists Ls G, q = PiWords (mkGranne Ls (se_of w embs (map conv values))) d /\ ix Release Ls G /\ length G = k /\ length (last G []) = n /\ n <= length values.
  Local Notation Searches := (searches fuel (value_distance w embs ws) (word_query w embs ws)
          (fun x e => exists v, value_vector w embs ws x v /\ e = PeFloats (angular_vector v))
          (fun x e => exists t kw, x = PyText t /\ known_words ws t kw /\ e = PeText (joined kw))).

  Lemma wix_search els Ls G : wok w embs els -> ix Release Ls G -> length (last G []) <= length els ->
    forall v fuel ms nn, (length v = w /\ tame v) \/ v = [] -> length els < fuel -> 0 < ms ->
      exists res, granne_search Release fuel Ls (fun i => c_dte (word_ops Release) (se_of w embs els) i (angular_vector v)) ms nn = Ok res /\
        length res <= Nat.min nn ms /\ StronglySorted closer res /\ NoDup (map fst res) /\
        (forall i d, In (i, d) res -> i < length (last G []) /\ exists ids, nth_error els i = Some ids /\ wdist Release w embs v ids = Ok d) /\
        (0 < length (last G []) -> 0 < nn -> res <> []).
  Proof using Hs Hw Hw0 Hdim Hembs Hlen0 H24.
    intros [Hf Hg] HI Hle v fu ms nn Hv Hfu Hms.
    assert (Hdy : forall i, i < length (last G []) -> exists x d, nth_error els i = Some x /\ wdist Release w embs v x = Ok d /\
      c_dte (word_ops Release) (se_of w embs els) i (angular_vector v) = Ok d).
    { intros i Hi. destruct (nth_error els i) as [x|] eqn:Hx; [|apply nth_error_None in Hx; lia].
      assert (Gx : wgood w embs x) by (rewrite Forall_forall in Hg; apply Hg; eapply nth_error_In; eauto).
      destruct (@w_get Release w embs Hd Hembs els i x Hf Hx Gx) as (r & Hr & Ht & Lr & Eg). destruct (@w_sum Release w embs Hd Hembs [] x Gx) as (r' & Er & Hr' & _).
      assert (r' = r) by (eapply PPyWords.is_embedding_unique; eauto). subst r'.
      assert (HD : exists d, coded (angular_dist (angular_vector r) (angular_vector v)) = Ok d).
      { destruct Hv as [[Lv Tv]| ->]; [now apply (t_dist w Hw)|]. change (angular_vector []) with ([] : list f32). rewrite empty_dist. eexists; reflexivity. }
      destruct HD as (dd & HD). exists x, dd. split; [reflexivity|]. unfold wdist. rewrite Er. cbn [obind]. split; [exact HD|].
      cbn [word_ops se_ops c_dte c_get] in *. unfold se_dist_to_element. rewrite Eg. cbn [obind]. exact HD. }
    destruct (ix_search HI (fun i => c_dte (word_ops Release) (se_of w embs els) i (angular_vector v))
      (fun i => match c_dte (word_ops Release) (se_of w embs els) i (angular_vector v) with Ok d => d | Fail _ => 0%Z end) fu ms nn) as (res & Er & R1 & R2 & R3 & R4 & R5); [|lia|exact Hms|].
    { intros i Hi. destruct (Hdy i Hi) as (x & dd & _ & _ & E). now rewrite E. }
    exists res. split; [exact Er|]. split; [exact R1|]. split; [exact R2|]. split; [exact R3|]. split; [|exact R5].
    intros i dd Hin. destruct (R4 i dd Hin) as [Hi Ei]. split; [exact Hi|]. destruct (Hdy i Hi) as (x & d' & Hx & E1 & E2). exists x. split; [exact Hx|]. congruence.
  Qed.

  Lemma words_searches values k n q : words_ix values k n q -> Searches q values n.
  Proof using Hs Hw Hw0 Hdim Hembs Hvf Hwf Hnd Hlen0 H24.
    intros (Hv & Hf & Hlt & Hok & Ls & G & -> & HI & Hk & Hn & Hle). subst n. pose proof (proj1 Hok) as Hfit.
    destruct (@dict_of_behaves ws Hnd) as (_ & _ & Hgw & _ & _). fold d in Hgw.
    assert (Hq := @words_q w embs ws Hw0 Hnd Hlen0 H24). fold d in Hq. fold conv in Hq.
    unfold searches. split; [exact (ix_len HI)|].
    assert (Hconv : forall i x, nth_error (values) i = Some x -> nth_error (map conv (values)) i = Some (conv x)).
    { intros i x Hx. now rewrite nth_error_map, Hx. }
    rewrite Forall_forall in Hv.
    split; [|split].
    { intros i x Hx. destruct (Hq x (Hv x (nth_error_In _ _ Hx))) as (t & toks & E1 & Ht & E2 & Hg).
      destruct (@w_get Release w embs Hd Hembs _ i (conv x) Hfit (Hconv i x Hx) Hg) as (r & Hr & _ & _ & Eg).
      exists (PeFloats (angular_vector r)). split.
      - cbn [pi_get_element gr_elems]. rewrite Eg. reflexivity.
      - exists r. split; [|reflexivity]. rewrite E1. constructor. exists toks. split; [exact Ht|]. now rewrite <- E2. }
    { intros i x Hx. destruct (Hq x (Hv x (nth_error_In _ _ Hx))) as (t & toks & E1 & Ht & E2 & Hg).
      exists (PeText (joined (filter (fun x => if in_dec (list_eq_dec N.eq_dec) x ws then true else false) toks))). split.
      - cbn [pi_get_internal_element gr_elems]. rewrite (@terms_of f32 w embs _ i (conv x) Hfit (Hconv i x Hx)). cbn [obind].
        rewrite Hgw by (rewrite E2; now apply known_range). cbn [obind]. rewrite E2. rewrite <- (known_back ws toks Hnd). reflexivity.
      - exists t. eexists. split; [exact E1|]. split; [|reflexivity]. exists toks. split; [exact Ht|reflexivity]. }
    assert (Hans : forall v ms nn y, (length v = w /\ tame v) \/ v = [] -> ms <> Some 0 ->
      (pi_search Release fuel (PiWords (mkGranne Ls (se_of w embs (map conv values))) d) y ms nn = search_in Release fuel (word_ops Release) (mkGranne Ls (se_of w embs (map conv values))) (angular_vector v) (fst (search_args ms nn)) (snd (search_args ms nn))) ->
      (forall r dd, tame r -> length r = w -> coded (angular_dist (angular_vector r) (angular_vector v)) = Ok dd ->
         exists v', value_vector w embs ws y v' /\ coded (angular_dist (angular_vector r) (angular_vector v')) = Ok dd) ->
      exists res, pi_search Release fuel (PiWords (mkGranne Ls (se_of w embs (map conv values))) d) y ms nn = Ok res /\
         py_answers (value_distance w embs ws) (values) (length (last G [])) y (fst (search_args ms nn)) (snd (search_args ms nn)) res).
    { intros v ms nn y Hvd Hms Epi Hvq.
      destruct (wix_search (map conv values) Ls G Hok HI ltac:(rewrite map_length; exact Hle) v fuel (fst (search_args ms nn)) (snd (search_args ms nn)) Hvd) as (res & Er & R1 & R2 & R3 & R4 & R5).
      { rewrite map_length. exact Hf. }
      { cbn. destruct ms as [[|ms]|]; [congruence| |]; cbn; lia. }
      exists res. split; [rewrite Epi; exact Er|].
      split; [exact R1|]. split; [exact R2|]. split; [exact R3|]. split; [|exact R5].
      intros i dd Hin. destruct (R4 i dd Hin) as (Hi & k' & Hk' & Edd). split; [exact Hi|]. rewrite nth_error_map in Hk'.
      destruct (nth_error (values) i) as [x|] eqn:Ex; [|discriminate]. cbn [option_map] in Hk'. exists x. split; [reflexivity|].
      assert (E4 : k' = conv x) by congruence. subst k'.
      destruct (Hq x (Hv x (nth_error_In _ _ Ex))) as (t & toks & E1 & Ht & E2 & Hg).
      destruct (@w_sum Release w embs Hd Hembs [] (conv x) Hg) as (r & Er2 & Hr & Tr & Lr).
      unfold wdist in Edd. rewrite Er2 in Edd. cbn [obind] in Edd. destruct (Hvq r dd Tr Lr Edd) as (v' & Hv' & Edd').
      exists r, v'. split; [rewrite E1; constructor; exists toks; split; [exact Ht|now rewrite <- E2]|]. split; [exact Hv'|].
      unfold py_compute_distance. change (str_eqb s_angular s_angular) with true. cbn iota. cbn [extract_floats obind]. exact Edd'. }
    intros y ms nn [Hy|(v & -> & Lv & Tv)] Hms.
    - destruct (Hq y Hy) as (t & toks & E1 & Ht & E2 & Hg). destruct (@w_sum Release w embs Hd Hembs (map conv (values)) (conv y) Hg) as (r & Er2 & Hr & Tr & Lr).
      destruct t as [|t0 t].
      + apply (Hans [] ms nn y); [right; reflexivity|exact Hms| |].
        * rewrite E1. cbn [pi_search extract_floats obind]. destruct ms, nn; reflexivity.
        * intros r' dd Tr' Lr' E. exists r. split; [rewrite E1; constructor; exists toks; split; [exact Ht|now rewrite <- E2]|].
          assert (E3 : conv y = []) by (rewrite E1; reflexivity). rewrite E3 in Hr. destruct (no_words_vector w embs r Hembs Hr) as [Zr _].
          rewrite (zero_query w r' r Hw Tr' Lr' Lr Zr). change (angular_vector []) with ([] : list f32) in E. rewrite empty_dist in E. exact E.
      + apply (Hans r ms nn y); [left; auto|exact Hms| |].
        * rewrite E1. cbn [pi_search extract_floats extract_text obind gr_elems]. rewrite E1 in Er2. unfold conv in Er2. cbn [ids_of] in Er2.
          fold conv in Er2. rewrite Er2. cbn [obind]. destruct ms, nn; reflexivity.
        * intros r' dd _ _ E. exists r. split; [|exact E]. rewrite E1; constructor; exists toks; split; [exact Ht|now rewrite <- E2].
    - apply (Hans v ms nn (PyFloats v)); [left; auto|exact Hms| |].
      + cbn [pi_search extract_floats obind]. destruct ms, nn; reflexivity.
      + intros r dd _ _ E. exists v. split; [now constructor|exact E].
  Qed.

  Lemma words_loads els : ids_fit els -> (N.of_nat (length els) < 4294967295)%N ->
    se_from_files vfile (Some (fst (se_write (se_of w embs els)))) = Ok (se_of w embs els).
  Proof using Hs Hw Hw0 Hdim Hembs Hvf Hlen0 H24.
    intros Hf Hl. pose proof (@write_load f32 w embs els Hf) as Eel. specialize (Eel ltac:(unfold fits64; lia)).
    unfold se_from_files. unfold se_from_bytes in Eel. destruct (els_from_bytes (fst (se_write (se_of w embs els)))) as [e|]; [|discriminate]. cbn [obind] in Eel |- *.
    rewrite (@words_vfile w embs vfile Hw0 Hw Hembs Hvf). cbn [obind]. exact Eel.
  Qed.

  Lemma words_ix_open values cfg k n p : words_inv fuel usort w embs ws values cfg k n p -> words_fits w embs ws values -> length values < fuel -> (N.of_nat (length values) < 4294967295)%N ->
    k_nn cfg <= 254 -> k <= 25 -> exists index q, pb_save_index Release p = Ok index /\
      pi_open json index s_embeddings (pb_save_elements p) (Some vfile) (Some wfile) = Ok q /\ same_index Release (pb_layers p) (pi_layers q) /\ words_ix values k n q.
  Proof using Hs Hw Hw0 Hdim Hembs Hvf Hwf Hnd Hlen0 H24.
    intros (b & -> & HI & Hc & Hk & Hn) Hfit Hf Hlt Hnn Hk25. rewrite <- Hc in Hnn. rewrite <- Hk in Hk25. subst n.
    destruct (g_ix V (@push_se f32) (wHolds w embs) (wok w embs) _ b Release Hs (w_law Release V HV) HI Hnn Hk25) as (G & HG & E1 & E2).
    destruct (ix_save HG) as (c & L' & Ew & El & Hsm & HG'). pose proof HI as (_ & Hh & Hok & Hlb). rewrite map_length in Hlb. unfold wHolds in Hh.
    exists (cbuf c), (PiWords (mkGranne L' (b_elems b)) d).
    split; [unfold pb_save_index; change (pb_layers (PbWords (mkWordBuilder b (dict_of ws)))) with (FixWidth (b_layers b)); rewrite Ew; reflexivity|].
    split.
    { unfold pi_open. change (etype_of s_embeddings) with (Some Words). cbn iota beta zeta. cbn [pb_save_elements wb_builder ounwrap obind].
      rewrite (@words_dict json ws wfile Hwf). cbn [obind]. rewrite Hh, words_loads; [|apply Hok|rewrite map_length; exact Hlt]. cbn [obind].
      unfold granne_from_file. rewrite El. cbn [obind]. rewrite (ix_len HG'). reflexivity. }
    split; [exact Hsm|]. split; [exact (proj1 Hfit)|]. split; [exact Hf|]. split; [exact Hlt|]. split; [exact Hok|]. exists L', G. rewrite Hh. split; [reflexivity|]. split; [exact HG'|]. split; [congruence|]. split; [exact E2|]. exact Hlb.
  Qed.

  Lemma words_works values cfg k n p : words_inv fuel usort w embs ws values cfg k n p -> words_fits w embs ws values -> length values < fuel -> (N.of_nat (length values) < 4294967295)%N ->
    k_nn cfg <= 254 -> k <= 25 ->
    works json fuel s_embeddings (Some vfile) (Some wfile)
          (value_distance w embs ws) (word_query w embs ws)
          (fun x e => exists v, value_vector w embs ws x v /\ e = PeFloats (angular_vector v))
          (fun x e => exists t kw, x = PyText t /\ known_words ws t kw /\ e = PeText (joined kw)) p values n.
  Proof using Hs Hw Hw0 Hdim Hembs Hvf Hwf Hnd Hlen0 H24.
    intros HI Hfit Hf Hlt Hnn Hk25. destruct (words_ix_open _ _ _ _ _ HI Hfit Hf Hlt Hnn Hk25) as (index & q & E1 & E2 & E3 & HX).
    destruct (words_searches _ _ _ _ HX) as (S1 & S2 & S3 & S4). destruct HI as (b & -> & HI & Hc & Hk & Hn). subst n.
    pose proof HI as (_ & Hh & _ & Hlb). rewrite map_length in Hlb. unfold wHolds in Hh.
    split; [cbn [pb_num_elements wb_builder]; rewrite Hh; unfold word_ops; cbn [se_ops c_len]; rewrite se_of_len; apply map_length|].
    split; [exact (builder_index_len b)|]. split; [exact Hlb|]. exists index, q. auto 10.
  Qed.

  Lemma words_reorders : reorders fuel words_ix (fun k => 1 <= k).
  Proof using Hs Hw Hw0 Hdim Hembs Hvf Hwf Hnd Hlen0 H24 Hnan.
    intros values k n q (Hv & Hf & Hlt & Hok & Ls & G & -> & HI & Hk & Hn & Hle) En H1. subst k.
    assert (Hne : G <> []) by (intros ->; cbn in H1; lia).
    set (nrm := fun v => match f32_norm v with Ok z => z | Fail _ => 0%Z end).
    destruct (@keys_ok f32 f32_add f32_zero f32_norm nrm w embs (map conv values) Release (proj1 Hok) Hd) as (keys & Ek & Hlk & _).
    { intros v Hin. unfold nrm. rewrite Forall_forall in Hnan. destruct (norm_ok v (Hnan v Hin)) as (z & ->). reflexivity. }
    { destruct Hok as [_ Hg]. eapply Forall_impl; [|exact Hg]. intros ids [Hi _]. exact Hi. }
    rewrite map_length in Hlk.
    assert (HP : forall p, is_perm (length (last G [])) p -> se_permute (se_of w embs (map conv values)) p = Ok (se_of w embs (pick [] (map conv values) p))).
    { intros p Hp. apply (@permute_perm f32 w embs); [apply Hok|]. rewrite map_length. rewrite <- En, <- Hn. exact Hp. }
    destruct (@k_reorder _ _ (@se_permute f32) MPyIndex.key_le keys Release Ls G (se_of w embs (map conv values)) HI Hne key_le_order) as (p & L' & G' & s' & E & Es & HK & HI' & E1 & E2 & HR).
    { lia. }
    { intros p Hp. rewrite (HP p Hp). eauto. }
    assert (Hs' : s' = se_of w embs (pick [] (map conv values) p)) by (rewrite (HP p (proj1 HK)) in Es; apply ok_inj in Es; congruence). subst s'.
    exists (PiWords (mkGranne L' (se_of w embs (pick [] (map conv values) p))) d), p.
    split; [cbn [pi_reorder gr_elems]; rewrite Ek; cbn [obind]; rewrite E; reflexivity|].
    assert (Hp : is_perm n p) by (rewrite <- Hn; exact (proj1 HK)). split; [exact Hp|].
    assert (Hrange : Forall (fun i => i < length values) p) by (rewrite <- En; now apply perm_range).
    assert (Emap : map conv (rearranged PyOther values p) = pick [] (map conv values) p) by (apply (re_map conv PyOther []); exact Hrange).
    split.
    - assert (Hlen : length (rearranged PyOther values p) = length values) by (unfold rearranged; rewrite map_length, (perm_len _ _ Hp); exact En).
      unfold words_ix. rewrite Emap, Hlen.
      split; [now apply re_Forall|]. split; [exact Hf|]. split; [exact Hlt|]. split.
      { destruct Hok as [Ho Hg]. assert (Hpm : Permutation (pick [] (map conv values) p) (map conv values)) by (apply pick_perm; rewrite map_length, <- En; exact Hp).
        split; [eapply ids_fit_perm; [symmetry; exact Hpm|exact Ho]|]. rewrite Hpm. exact Hg. }
      exists L', G'. split; [reflexivity|]. split; [exact HI'|]. split; [exact E1|]. split; lia.
    - intros L0 o HR0. exact (renamed_trans Release L0 Ls L' o p G (ix_shows HI) (ix_graph _ _ _ HI) HK HR0 HR).
  Qed.

  Lemma words_resaves : resaves json s_embeddings (Some vfile) (Some wfile) words_ix (fun k => 1 <= k).
  Proof using Hs Hw Hw0 Hdim Hembs Hvf Hwf Hnd Hlen0 H24.
    intros values k n q (Hv & Hf & Hlt & Hok & Ls & G & -> & HI & Hk & Hn & Hle) En H1. subst k.
    destruct (ix_save HI) as (c & L' & Ew & El & Hsm & HG').
    exists (cbuf c), (PiWords (mkGranne L' (se_of w embs (map conv values))) d).
    split; [unfold pi_save_index; cbn [pi_layers gr_layers]; rewrite Ew; reflexivity|].
    split.
    { unfold pi_open. change (etype_of s_embeddings) with (Some Words). cbn iota beta zeta. cbn [pi_save_elements gr_elems ounwrap obind].
      rewrite (@words_dict json ws wfile Hwf). cbn [obind]. rewrite words_loads; [|apply Hok|rewrite map_length; exact Hlt]. cbn [obind].
      unfold granne_from_file. rewrite El. cbn [obind]. rewrite (ix_len HG'). reflexivity. }
    split; [exact Hsm|]. split; [exact Hv|]. split; [exact Hf|]. split; [exact Hlt|]. split; [exact Hok|]. exists L', G. auto 10.
  Qed.
End words.
