(** C163: incremental encoders. *)
From Coq Require Import ZArith List Bool Lia.
From Verif Require Import Py IncEnc_Model IncEnc_Spec.
Import ListNotations.
Local Open Scope Z_scope.

Lemma chunk_all : forall limit s, encodable limit s -> encode_chunk limit s = (s, []).
Proof.
  intros limit. induction s as [|c s IH]; intros E; [reflexivity|]. cbn [encode_chunk].
  destruct (Z.ltb_spec c limit) as [_|L].
  - rewrite IH; [reflexivity|]. intros d I. apply E. right. exact I.
  - exfalso. specialize (E c (or_introl eq_refl)). lia.
Qed.
Lemma one_shot_all : forall limit h s, encodable limit s -> one_shot limit h s = Ok s.
Proof.
  intros limit h. induction s as [|c s IH]; intros E; [reflexivity|]. cbn [one_shot]. unfold encoded.
  destruct (Z.ltb_spec c limit) as [_|L].
  - rewrite IH; [reflexivity|]. intros d I. apply E. right. exact I.
  - exfalso. specialize (E c (or_introl eq_refl)). lia.
Qed.

(** Texts that can be encoded: every piece gives what it should. *)
Theorem C163_encodable_partial : forall limit h pieces last,
  (forall p, In p (pieces ++ [last]) -> encodable limit p) ->
  feed limit h [] pieces last = reference limit h (pieces ++ [last]).
Proof.
  intros limit h. induction pieces as [|p ps IH]; intros last E; cbn [feed app reference].
  - assert (L : encodable limit last) by (apply E; left; reflexivity).
    unfold inc_encode, buffer_encode. cbn [app]. rewrite (chunk_all _ _ L), (one_shot_all _ _ _ L). reflexivity.
  - assert (P : encodable limit p) by (apply E; left; reflexivity).
    unfold inc_encode at 1, buffer_encode. cbn [app]. rewrite (chunk_all _ _ P), (one_shot_all _ _ _ P).
    cbn [bind fst snd]. rewrite (IH last); [reflexivity|]. intros q I. apply E. right. exact I.
Qed.
Print Assumptions C163_encodable_partial.

(** One final call with at most one other character, the last one: also right. *)
Theorem C163_last_partial : forall limit h s c,
  encodable limit s -> feed limit h [] [] (s ++ [c]) = reference limit h [s ++ [c]].
Proof.
  intros limit h s c E. cbn [feed reference]. unfold inc_encode, buffer_encode. cbn [app].
  assert (X : encode_chunk limit (s ++ [c]) = if c <? limit then (s ++ [c], []) else (s, [c])).
  { induction s as [|d s IH]; [cbn [app encode_chunk]; destruct (c <? limit); reflexivity|].
    cbn [app encode_chunk]. rewrite IH by (intros x I; apply E; right; exact I).
    destruct (Z.ltb_spec d limit) as [_|L]; [|specialize (E d (or_introl eq_refl)); lia].
    destruct (c <? limit); reflexivity. }
  assert (Y : one_shot limit h (s ++ [c]) =
              match encoded limit h c with None => Err UnicodeError | Some b => Ok (s ++ b) end).
  { induction s as [|d s IH].
    - cbn [app one_shot]. destruct (encoded limit h c); [cbn [bind]; rewrite app_nil_r|]; reflexivity.
    - cbn [app one_shot]. unfold encoded at 1.
      destruct (Z.ltb_spec d limit) as [_|L]; [|specialize (E d (or_introl eq_refl)); lia].
      rewrite IH; [destruct (encoded limit h c); reflexivity| |].
      + intros x I. apply E. right. exact I.
      + cbn [app encode_chunk] in X. destruct (d <? limit); [|destruct (c <? limit); discriminate].
        destruct (encode_chunk limit (s ++ [c])) as [o r]. destruct (c <? limit); injection X as -> ->; reflexivity. }
  rewrite X, Y. unfold encoded. destruct (c <? limit); [reflexivity|].
  cbn [negb]. destruct (h c); reflexivity.
Qed.
Print Assumptions C163_last_partial.
Example C163_example :
  feed 128 (fun _ => None) [] [[97; 98]; []] [99] = Ok [[97; 98]; []; [99]] /\
  feed 128 (fun _ => Some [63]) [] [] [97; 233] = Ok [[97; 63]].
Proof. split; reflexivity. Qed.


(** With the strict handler errors come late but are not lost, however the text is cut: in
    all, the calls give what encoding the text at once gives. *)
Definition strict : Z -> option (list Z) := fun _ => None.
Lemma chunk_split : forall limit s out rest, encode_chunk limit s = (out, rest) ->
  s = out ++ rest /\ encodable limit out /\ (forall c r, rest = c :: r -> limit <= c).
Proof.
  intros limit. induction s as [|c s IH]; intros out rest E; cbn [encode_chunk] in E.
  - injection E as <- <-. split; [reflexivity|]. split; [intros c []|discriminate].
  - destruct (Z.ltb_spec c limit) as [L|L].
    + destruct (encode_chunk limit s) as [o r] eqn:Ec. injection E as <- <-.
      destruct (IH _ _ eq_refl) as (-> & Eo & Er). split; [reflexivity|]. split; [|exact Er].
      intros d [<-|I]; [exact L|apply Eo; exact I].
    + injection E as <- <-. split; [reflexivity|]. split; [intros d []|].
      intros d r X. injection X as <- <-. exact L.
Qed.
Lemma strict_app : forall limit out s, encodable limit out ->
  one_shot limit strict (out ++ s) = do bs <- one_shot limit strict s; Ok (out ++ bs).
Proof.
  intros limit. induction out as [|c out IH]; intros s E; cbn [app one_shot].
  - destruct (one_shot limit strict s); reflexivity.
  - unfold encoded at 1. destruct (Z.ltb_spec c limit) as [_|L].
    + rewrite IH by (intros d I; apply E; right; exact I). destruct (one_shot limit strict s); reflexivity.
    + exfalso. specialize (E c (or_introl eq_refl)). lia.
Qed.
Lemma strict_err : forall limit c s, limit <= c -> one_shot limit strict (c :: s) = Err UnicodeError.
Proof.
  intros limit c s L. cbn [one_shot]. unfold encoded. destruct (Z.ltb_spec c limit) as [H|_]; [lia|]. reflexivity.
Qed.
Lemma strict_feed : forall limit pieces last buffer,
  (do outs <- feed limit strict buffer pieces last; Ok (concat outs)) =
  one_shot limit strict (buffer ++ concat pieces ++ last).
Proof.
  intros limit. induction pieces as [|p ps IH]; intros last buffer; cbn [feed concat app].
  - unfold inc_encode, buffer_encode. destruct (encode_chunk limit (buffer ++ last)) as [out rest] eqn:E.
    destruct (chunk_split _ _ _ _ E) as (-> & Eo & Er). rewrite (strict_app _ _ _ Eo). destruct rest as [|c r].
    + cbn [bind fst concat one_shot app]. rewrite !app_nil_r. reflexivity.
    + rewrite (strict_err _ _ r (Er c r eq_refl)). reflexivity.
  - unfold inc_encode at 1, buffer_encode. destruct (encode_chunk limit (buffer ++ p)) as [out rest] eqn:E.
    destruct (chunk_split _ _ _ _ E) as (S & Eo & Er).
    replace (buffer ++ (p ++ concat ps) ++ last) with (out ++ rest ++ concat ps ++ last)
      by (rewrite <- !app_assoc, (app_assoc buffer p), S, <- !app_assoc; reflexivity).
    rewrite (strict_app _ _ _ Eo), <- (IH last rest).
    destruct rest as [|c r]; cbn [negb bind fst snd];
      (destruct (feed limit strict _ ps last); reflexivity).
Qed.
Theorem C163_strict : forall limit pieces last,
  (do outs <- feed limit strict [] pieces last; Ok (concat outs)) =
  one_shot limit strict (concat pieces ++ last).
Proof. intros. apply strict_feed. Qed.
Print Assumptions C163_strict.
Example C163_strict_example :
  feed 128 strict [] [[97; 233]; [98]] [99] = Err UnicodeError /\
  feed 128 strict [] [[97]; [98]] [99] = Ok [[97]; [98]; [99]].
Proof. split; reflexivity. Qed.

(** A character that cannot be encoded blocks the encoder: from then on nothing is given
    out before the final call. *)
Theorem C163_blocked : forall limit h c r p,
  limit <= c -> inc_encode limit h (c :: r) p false = Ok ([], c :: r ++ p).
Proof.
  intros limit h c r p L. unfold inc_encode, buffer_encode. cbn [app encode_chunk].
  destruct (Z.ltb_spec c limit) as [H|_]; [lia|]. reflexivity.
Qed.
Print Assumptions C163_blocked.
Example C163_blocked_example : inc_encode 128 (fun _ => Some [63]) [233] [97] false = Ok ([], [233; 97]).
Proof. reflexivity. Qed.

(** Refuted: errors are not raised by the piece that has them, text after a replaced
    character is lost, and streams do not work at all. *)
Theorem C163_late_refuted : exists p, 
  inc_encode 128 (fun _ => None) [] p false = Ok ([97], [233; 98]) /\
  reference 128 (fun _ => None) [p] = Err UnicodeError.
Proof. exists [97; 233; 98]. split; reflexivity. Qed.
Print Assumptions C163_late_refuted.
Theorem C163_lost_refuted : exists h s out out',
  feed 128 h [] [] s = Ok [out] /\ reference 128 h [s] = Ok [out'] /\
  out = [97; 63] /\ out' = [97; 63; 98; 99].
Proof.
  exists (fun _ => Some [63]), [97; 233; 98; 99], [97; 63], [97; 63; 98; 99].
  split; [reflexivity|]. split; [reflexivity|]. split; reflexivity.
Qed.
Print Assumptions C163_lost_refuted.
Theorem C163_stream_refuted : exists s, encodable 128 s /\
  one_shot 128 (fun _ => None) s = Ok s /\ stream_write s <> Ok s.
Proof.
  exists [97]. split; [intros c [<-|[]]; lia|]. split; [reflexivity|discriminate].
Qed.
Print Assumptions C163_stream_refuted.
