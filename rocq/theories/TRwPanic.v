(** * Theorems C85: calls of a shared builder that panic *)
From Coq Require Import Permutation Sorted ZArith.
From Verif Require Import Base BaseFacts MSliceVec MIndexIo MSearch MBuild SBuild MLocks MRw SRw PBuildRun PRwSeq PRwLock PRwIds PIndexCrash PSearch PRwConc PRwTop PRwLive SSliceVec PFixed TBuild TRw MRwPanic SRwPanic PRwPanic PRwPanic2.
Close Scope R_scope. Close Scope Z_scope. Open Scope nat_scope.

(** ** Who panics *)

(** Whatever the threads do, in whatever order, and whichever calls panic: every
    thread can be run on, and the only calls that panic are those that insert
    an element which the container refuses, or search while looking at no node.
    A panic of one thread never makes a call of another panic. *)
Theorem C85_only_bad_calls_panic :
  forall S E I (V : benv S E) (cpush : S -> I -> outcome S) cfg max W0 P progs sched,
    psession V cpush cfg max W0 P progs ->
    exists y, prun V cpush cfg max P [] sched (rstart W0 progs) = Ok y /\
    forall m e, rsys_step V cpush cfg max P sched y m = Fail e ->
      e = Panicked /\ exists t, nth_error (snd y) (fst m) = Some t /\ to_blame cpush (fst y) t.
Proof.
  intros S E I V cpush cfg max W0 P progs sched H. destruct (prun_inv H sched) as (y & Hy & _). exists y. split; auto.
  intros m e He. eapply prun_blame; eauto.
Qed.
Print Assumptions C85_only_bad_calls_panic.

(** ** Ids *)

(** All ids returned so far are distinct, increasing within a call, and the element
    stored at the j-th id of a call is the j-th element passed; fewer ids than
    elements are returned only by a full builder. *)
Theorem C85_ids :
  forall S E I (V : benv S E) (cpush : S -> I -> outcome S) elem cfg max W0 P progs sched y,
    psession V cpush cfg max W0 P progs -> appends (e_ops V) cpush elem ->
    prun V cpush cfg max P [] sched (rstart W0 progs) = Ok y ->
    let n0 := c_len (e_ops V) (w_elems W0) in let s := w_elems (fst y) in
    NoDup (concat (map snd (inserts y))) /\
    forall xs ids, In (xs, ids) (inserts y) ->
      StronglySorted lt ids /\ length ids <= length xs /\
      (length ids = length xs \/ c_len (e_ops V) s = max) /\
      forall j i x, nth_error ids j = Some i -> nth_error xs j = Some x ->
        n0 <= i < c_len (e_ops V) s /\ c_get (e_ops V) s i = Ok (elem x).
Proof.
  intros S E I V cpush elem cfg max W0 P progs sched y Hse Ha Er n0 s.
  destruct (prun_left Hse Er) as (_ & _ & Hmax & _).
  destruct (prun_inv Hse sched) as (y1 & Ey & [_ HT (hist & lost & Hh & Hn & Hp) _]). rewrite Er in Ey. apply ok_inj in Ey. subst y1.
  destruct (pushed_get Ha Hh) as (_ & _ & Hg). fold s in Hg, Hn, Hmax. fold n0 in Hg, Hn, Hp.
  split.
  - eapply inserts_nodup; [exact HT|]. assert (HN : NoDup (map fst (flat_map claims (snd y) ++ lost))).
    { rewrite Hp, map_fst_combine_seq. apply seq_NoDup. }
    rewrite map_app in HN. exact (NoDup_appl _ _ HN).
  - intros xs ids Hin. destruct (insert_log HT Hin) as (dn & rest & Ex & Hlen & Hs & HF & Hr). split; auto.
    split; [rewrite Ex, app_length; lia|]. split.
    { destruct rest as [|x rest]; [left; subst; rewrite app_nil_r; auto|right]. assert (Hne : x :: rest <> []) by discriminate. specialize (Hr Hne). fold s in Hr. lia. }
    intros j i x Hi Hx. pose proof (insert_claims Hin (nth_combine Hi Hx)) as Hc.
    assert (Hc' : In (i, x) (flat_map claims (snd y) ++ lost)) by (apply in_or_app; auto).
    apply (Permutation_in _ Hp) in Hc'. apply in_combine_seq in Hc' as [H1 H2].
    assert (i - n0 < length hist) by (apply nth_error_Some; congruence).
    split; [lia|]. rewrite <- (Hg _ _ H2). f_equal. lia.
Qed.
Print Assumptions C85_ids.

(** ** Searches and saves *)

(** What a search returned was correct for the data at some moment before; what
    [write] wrote are the elements of such a moment, and layers that are
    well-formed for them. *)
Theorem C85_results :
  forall S E I (V : benv S E) (cpush : S -> I -> outcome S) cfg max W0 P progs sched y r,
    psession V cpush cfg max W0 P progs -> prun V cpush cfg max P [] sched (rstart W0 progs) = Ok y -> returned y r ->
    match r with
    | Inserted _ _ => True
    | Found q ms nn out => exists before after y1, sched = before ++ after /\
        prun V cpush cfg max P [] before (rstart W0 progs) = Ok y1 /\ correct_for V (fst y1) q ms nn out
    | Saved s ls => exists before after y1, sched = before ++ after /\
        prun V cpush cfg max P [] before (rstart W0 progs) = Ok y1 /\ s = w_elems (fst y1) /\
        (c_len (e_ops V) s = 0 -> ls = []) /\
        (0 < c_len (e_ops V) s -> exists l, ls = w_prev (fst y1) ++ [l] /\ fw_len l = c_len (e_ops V) s /\
           fdata l = concat (firstn (c_len (e_ops V) s) (w_cur (fst y1)))) /\
        layers_wf (k_nn cfg) (c_len (e_ops V) s) ls
    end.
Proof.
  intros S E I V cpush cfg max W0 P progs sched y r Hse Er (t & Ht & Hr).
  destruct (prun_inv Hse sched) as (y1 & Ey & [_ _ _ (hist & R & rows & k & _ & HT)]). rewrite Er in Ey. apply ok_inj in Ey. subst y1.
  apply In_nth_error in Ht as (i & Hi). pose proof (po_log (HT _ _ Hi)) as HF. rewrite Forall_forall in HF. specialize (HF _ Hr).
  destruct r as [xs ids|q ms nn out|s ls]; auto. destruct HF as (h1 & h2 & y1 & E1 & E2 & E3).
  exists h1, h2, y1. split; auto. split; auto. destruct (prun_saved Hse E2 E3) as (H1 & H2 & H3 & H4). auto.
Qed.
Print Assumptions C85_results.

(** ** What is left *)

(** At any moment the data are in order for further use: rows and layers are
    well-formed, the builder is not over-full, nothing that was stored is lost or changed,
    and any calls may follow. *)
Theorem C85_left_in_order :
  forall S E I (V : benv S E) (cpush : S -> I -> outcome S) cfg max W0 P progs sched y,
    psession V cpush cfg max W0 P progs -> prun V cpush cfg max P [] sched (rstart W0 progs) = Ok y ->
    c_len (e_ops V) (w_elems (fst y)) <= max /\
    (c_len (e_ops V) (w_elems W0) <= c_len (e_ops V) (w_elems (fst y)) /\
     forall i, i < c_len (e_ops V) (w_elems W0) -> c_get (e_ops V) (w_elems (fst y)) i = c_get (e_ops V) (w_elems W0) i) /\
    forall P' progs', safe_locks P' -> Forall (Forall (query_ok V cpush max (w_elems (fst y)))) progs' ->
      psession V cpush cfg max (fst y) P' progs' /\
      (elems_work V cpush max (w_elems (fst y)) -> calls_ok V cpush max (w_elems (fst y)) progs' ->
       session V cpush cfg max (fst y) P' progs').
Proof.
  intros S E I V cpush cfg max W0 P progs sched y Hse Er. destruct (prun_left Hse Er) as (H1 & H2 & H3 & hist & Hh & Hn).
  split; auto. destruct Hse as [Hmode Hsort Hpush Hrefuse Hwork Hwf Hsizes HP Hcalls]. split.
  - clear -Hh Hpush. revert Hh. generalize (w_elems (fst y)) (w_elems W0). intros s'. induction hist as [|x hist IH]; intros s; cbn [ofold]; intros H.
    + injection H as <-. auto.
    + destruct (cpush s x) as [s1|] eqn:E1; [|discriminate]. cbn [obind] in H. destruct (Hpush _ _ _ E1) as (HL & Hg & _).
      destruct (IH _ H) as [H1 H2]. split; [lia|]. intros i Hi. rewrite H2 by lia. auto.
  - intros P' progs' HP' Hq. split; [|intros Hw Hc; constructor; auto].
    constructor; auto. constructor; [exact (ew_ids Hwork)|]. intros h s Hs Hl.
    apply (ew_use Hwork (h := hist ++ h)); auto. rewrite ofold_app, Hh. exact Hs.
Qed.
Print Assumptions C85_left_in_order.

(** ** Waiting *)

Lemma can_go_or_not {S E I} (P : rpolicy S E I) h (y : rsys S E I) i : can_go P h y i \/ ~ can_go P h y i.
Proof.
  destruct (nth_error (snd y) i) as [t|] eqn:Et; [|right; intros (t & Ht & _); congruence].
  assert (Hfd : finished t \/ ~ finished t).
  { unfold finished. destruct (t_pc t); try (right; intros [H _]; discriminate). destruct (t_todo t); [left; auto|right; intros [_ H]; discriminate]. }
  destruct Hfd as [Hf|Hf]; [right; intros (u & Hu & H1 & _); rewrite Et in Hu; injection Hu as <-; tauto|].
  destruct (wants (t_pc t)) as [[l a]|] eqn:Ew.
  - destruct (P h y i) eqn:Ep; [left; exists t; auto|right]. intros (u & Hu & _ & H1). rewrite (H1 l a) in Ep; [discriminate|]. exists t. auto.
  - left. exists t. split; auto. split; auto. intros l a (u & Hu & Hw). congruence.
Qed.
Lemma someone_or_nobody {S E I} (P : rpolicy S E I) h (y : rsys S E I) : (exists i, can_go P h y i) \/ forall i, ~ can_go P h y i.
Proof.
  assert (Hk : forall k, (exists i, can_go P h y i) \/ forall i, i < k -> ~ can_go P h y i).
  { induction k as [|k [IH|IH]]; [right; lia|auto|]. destruct (can_go_or_not P h y k) as [Hk|Hk]; [eauto|].
    right. intros i Hi. destruct (Nat.eq_dec i k) as [->|]; [auto|]. apply IH. lia. }
  destruct (Hk (length (snd y))) as [H|H]; [auto|]. right. intros i Hc. pose proof Hc as (t & Ht & _). apply (H i); auto. apply nth_error_Some. congruence.
Qed.

(** No guard outlives the call that took it: as long as some thread has not
    finished, some thread can go on (with locks that let readers in while a
    writer waits; with others a batch that is split can deadlock with a save
    whether or not a call panics, C44). *)
Theorem C85_someone_can_go :
  forall S E I (V : benv S E) (cpush : S -> I -> outcome S) cfg max W0 P progs sched y,
    psession V cpush cfg max W0 P progs -> live_locks P -> reader_preferring P ->
    prun V cpush cfg max P [] sched (rstart W0 progs) = Ok y ->
    Forall finished (snd y) \/ exists i, can_go P sched y i.
Proof.
  intros S E I V cpush cfg max W0 P progs sched y _ HL HR _.
  destruct (someone_or_nobody P sched y) as [H|H]; auto. left. apply Forall_forall. intros t Ht.
  assert (D : {finished t} + {~ finished t}).
  { unfold finished. destruct (t_pc t); try (right; intros [A _]; discriminate). destruct (t_todo t); [left; auto|right; intros [_ A]; discriminate]. }
  destruct D as [D|D]; auto. exfalso. eapply (reader_pref_goes HL (h := sched) HR); eauto.
Qed.
Print Assumptions C85_someone_can_go.
