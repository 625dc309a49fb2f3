(** Model of the fine-tuning of KD_EqGPT (kd/model/kd_eqgpt.py:218-232, 466-490), of the data set and the batches
    (kd/model/eqgpt/continue_train_GPT_all.py:56-90) and of the decoder (kd/model/eqgpt/gpt_model.py:64-219).
    The numerical content of a layer is an argument: what matters is which positions it can see.  A masked position has
    score -1e9, whose softmax weight is exactly 0 next to an unmasked one (float32, scores of ordinary size). *)
From Coq Require Import QArith.
From Verif Require Import Base Num EqGpt.
Local Open Scope nat_scope.
Local Open Scope list_scope.

(** ** Training sentences *)
(** _prepare_train_data (kd_eqgpt.py:466-490), one of the best candidates *)
Definition prepare (s : list nat) : list nat :=
  let d := delete_duplicate s in
  let d := if last d 0 =? tE then removelast d else d in
  if existsb (Nat.eqb tS) d then d else tS :: (d ++ [tE]).
(** MyDataSet.__getitem__ (continue_train_GPT_all.py:60-69): data[:-1], data[1:] *)
Definition item (s : list nat) : list nat * list nat := (removelast s, tl s).
(** l.extend([0] * (n - len)) *)
Definition pad (n : nat) (l : list nat) : list nat := l ++ repeat 0 (n - List.length l).
(** padding_batch (74-87) *)
Definition padding_batch (items : list (list nat * list nat)) : list (list nat) * list (list nat) :=
  let n := list_max (map (fun d => List.length (fst d)) items) in
  let m := list_max (map (fun d => List.length (snd d)) items) in
  (map (fun d => pad n (fst d)) items, map (fun d => pad m (snd d)) items).

(** ** The decoder *)
Section Decoder.
Variables (V L : Type) (emb : nat -> nat -> V) (layers : list (bool -> V -> list V -> V)) (project : V -> L).

(** get_attn_pad_mask, get_attn_subsequence_mask and their sum > 0 (gpt_model.py:64-87, 191-194): position [k] is hidden
    from position [q] *)
Definition hidden (tokens : list nat) (q k : nat) : bool := (nth k tokens 0 =? 0) || (q <? k).
(** one DecoderLayer (155-171) at position [q]; when every position is hidden all scores are equal, so all count *)
Definition attend (tokens : list nat) (layer : bool -> V -> list V -> V) (xs : list V) (q : nat) (x : V) : V :=
  let seen := filter (fun p => negb (hidden tokens q (fst p))) (combine (seq 0 (List.length xs)) xs) in
  match seen with
  | [] => layer true x xs
  | _ :: _ => layer false x (map snd seen)
  end.
Definition decoder_layer (tokens : list nat) (xs : list V) (layer : bool -> V -> list V -> V) : list V :=
  map (fun p => attend tokens layer xs (fst p) (snd p)) (combine (seq 0 (List.length xs)) xs).
(** Decoder.forward (181-201): pos_emb has max_pos entries *)
Definition decode (tokens : list nat) : res (list V) :=
  if max_pos <? List.length tokens then Err IndexError
  else Ok (fold_left (decoder_layer tokens) layers (map (fun p => emb (snd p) (fst p)) (combine (seq 0 (List.length tokens)) tokens))).
(** GPT.forward (210-219), one row: the logits of every position *)
Definition forward (tokens : list nat) : res (list L) := do xs <- decode tokens ; Ok (map project xs).
(** GPT.step (288-297): the logits the next word is drawn from, prob[0, -1] before the mask *)
Definition step_logits (d : L) (sentence : list nat) : res L := do l <- forward sentence ; Ok (last l d).

(** ** The loss *)
Variable nll : L -> nat -> Q.                                (* -log_softmax(logits)[target] *)
(** nn.CrossEntropyLoss(ignore_index=0) on the flattened batch (kd_eqgpt.py:228; train_step 114-118): the mean over the
    targets that are not 0 *)
Definition batch_loss (outs : list (list L)) (targets : list (list nat)) : Q :=
  let terms := List.concat (map2 (fun o t => map (fun p => nll (fst p) (snd p)) (filter (fun p => negb (snd p =? 0)) (combine o t))) outs targets) in
  qsum terms / inject_Z (Z.of_nat (List.length terms)).
(** one step of the fine-tuning (kd_eqgpt.py:218-232): one batch with all sentences *)
Definition finetune_loss (best : list (list nat)) : res Q :=
  let (ins, outs) := padding_batch (map item (map prepare best)) in
  do lg <- mapM forward ins ;
  Ok (batch_loss lg outs).
End Decoder.
