(** * Theorems C67, continued: texts as elements *)
From Coq Require Import ZArith Reals Lra Lia.
From Flocq Require Import Core IEEE754.BinarySingleNaN.
From Verif Require Import Base BaseFacts Bytes PBytes MSliceVec SSliceVec PFixed PVar MIndexIo SIndexIo PIndexCrash MSearch SSearch MBuild SBuild MReorder MFloat MFloatBits MAngular SAngular MLayerSize SLayerSize TLayerSize.
From Verif Require Import PF32 PCode PAngInt PAng PQuant PDense PDenseHist PBuilder PHistory PHistGen SPipeline TSlice TVectors MEmbed SEmbed PEmbed PEmbed2 MParse SParse PParse PParse3 MPyIndex SPyIndex PPipelineB PPyIndex PPyWords PPyMain TPyIndex SPyMore PPyMore PPyKinds PPyIx PPyIxW.
Close Scope R_scope. Close Scope Z_scope.
Open Scope nat_scope.

(** ** "embeddings" *)
(** Whatever texts are appended, in between calls of [build], to a builder for the
    words [ws] (no word twice) with the vectors [embs]: the same as above, where
    the vector of a text is the sum of the vectors of its known words.  Opened
    again the index gives for every text its normalised vector
    and its known words; queries are texts or vectors. *)
Theorem C67_embeddings :
  forall fuel usort json L o w embs ws wfile vfile cs,
    sorts_by_dist usort -> options_ok L o ->
    0 < w -> (Z.of_nat (rounds w) <= 10000)%Z -> Forall (fun v => length v = w) embs -> embs <> [] -> vectors_file w embs vfile ->
    NoDup ws -> length ws <= length embs -> (N.of_nat (length ws) <= 2 ^ 24)%N -> words_file json ws wfile ->
    Forall (text_value w embs ws) (appended cs) ->
    (forall kws, texts_words ws (appended cs) kws -> (N.of_nat (length (concat kws)) < 2 ^ 40)%N) ->
    few_layers L o (length (appended cs)) ->
    length (appended cs) < fuel -> (N.of_nat (length (appended cs)) < 4294967295)%N ->
    exists p0, pb_new Release fuel usort json L s_embeddings None (Some vfile) (Some wfile) None o = Ok p0 /\
    match py_session Release fuel usort p0 cs with
    | Fail e => Forall complete cs -> e = OutOfFuel
    | Ok p => exists n,
        works json fuel s_embeddings (Some vfile) (Some wfile)
          (value_distance w embs ws) (word_query w embs ws)
          (fun x e => exists v, value_vector w embs ws x v /\ e = PeFloats (angular_vector v))
          (fun x e => exists t kw, x = PyText t /\ known_words ws t kw /\ e = PeText (joined kw)) p (appended cs) n /\
        ((exists cs' f s, cs = cs' ++ [PcBuild f None s]) -> n = length (appended cs))
    end.
Proof.
  intros fuel usort json L o w embs ws wfile vfile cs Hs Ho Hw0 Hw Hdim Hembs Hvf Hnd Hlen0 H24 Hwf Hv Htot Hfew Hf Hn.
  destruct (@words_new fuel usort json L Hs w embs ws wfile vfile Hw0 Hw Hdim Hembs Hvf Hnd Hlen0 H24 Hwf o Ho) as (p0 & E0 & H0). exists p0. split; [exact E0|].
  specialize (H0 ltac:(lia)).
  pose proof (@words_sessions fuel usort json Hs w embs ws wfile vfile Hw0 Hw Hdim Hembs Hvf Hnd Hlen0 H24 Hwf [] _ 0 0 p0 cs H0 (conj Hv Htot) Hf Hn) as H. cbn [app] in H.
  destruct (py_session Release fuel usort p0 cs) as [p|e]; [|exact H].
  destruct H as (k & n & HI & Hk & Hlast). exists n. split; [|exact Hlast].
  eapply words_works; eauto; [split; auto|now apply options_nn|]. apply (Hk 24); [now apply options_full|lia].
Qed.
Print Assumptions C67_embeddings.
