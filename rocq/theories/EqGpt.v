(** Model of KD_EqGPT (kd/model/kd_eqgpt.py) and of the parts of kd/model/eqgpt it runs: gpt_model.GPT.step,
    continue_train_GPT_all.{delete_duplicate, calculate_reward, get_mask_invalid, find_min_no_repeat}.
    The neural networks, numpy's least squares and torch.topk's order of ties are arguments.  Numbers are [num]
    (rationals, infinities, NaN); float32 storage of the rewards (all_reward tensor) is not rounded. *)
From Coq Require Import QArith Qabs.
From Verif Require Import Base Num.
Local Open Scope nat_scope.
Local Open Scope list_scope.

(** ** Vocabulary *)
Local Open Scope string_scope.
Local Open Scope list_scope.
(** id2word of dict_datas_0725.json; word2id is its inverse *)
Definition vocab : list string :=
  ["<pad>"; "E"; "+"; "*"; "/"; "S"; "ut"; "u"; "ux"; "uxx"; "uxxt"; "ut^2"; "uxt"; "utt"; "ux^2"; "uxxxx"; "(uux)x"; "uxxtt"; "(u^4)xx"; "u^2"; "uxxx"; "u^3"; "x"; "uyy"; "(1/u)xx"; "(u^-2*ux)x"; "uxxxxx"; "ut^3"; "sqrt(u)"; "sin(u)"; "sinh(u)"; "BiLaplace(u)"; "uy"; "Laplace(u)"; "y"; "x^2"; "y^2"; "uy^2"; "uxy"; "uz"; "uzz"; "Laplace(utt)"; "(x+y)"; "exp(x)"; "uyyt"; "sint"; "sinx"; "(uxx+ux/x)^2"; "x^4"; "sqrt(x)"; "exp(-y)"; "t"; "uyyy"; "(uux)t"; "(uux)xx"; "(u^3)xx"; "(u(u^2)xx)xx"].
Local Open Scope string_scope.
Local Open Scope nat_scope.
Local Open Scope list_scope.
Definition word (k : nat) : string := nth k vocab "".
(** word2id[w] *)
Fixpoint index_in (w : string) (l : list string) : nat :=
  match l with [] => 0 | x :: l' => if String.eqb x w then 0 else S (index_in w l') end.
Definition tok (w : string) : nat := index_in w vocab.
(** The control tokens *)
Definition tE : nat := 1.
Definition tPlus : nat := 2.
Definition tTimes : nat := 3.
Definition tDiv : nat := 4.
Definition tS : nat := 5.
Definition tUt : nat := 6.
(** max_pos (gpt_model.py:20) *)
Definition max_pos : nat := 50.

(** ** The constructor (kd_eqgpt.py:78-128) *)
(** Arguments as far as the checks tell them apart; True and False are integers. *)
Inductive pyarg := PInt (z : Z) | PBool (b : bool) | PFloat (q : Q) | PStr (s : string) | PNone.
(** isinstance(v, int) and its value *)
Definition as_int (v : pyarg) : option Z := match v with PInt z => Some z | PBool b => Some (if b then 1%Z else 0%Z) | _ => None end.
(** v < 0; TypeError for a text or None *)
Definition below0 (v : pyarg) : res bool :=
  match v with
  | PInt z => Ok (z <? 0)%Z | PBool _ => Ok false | PFloat q => Ok (negb (Qle_bool 0 q))
  | PStr _ | PNone => Err TypeError
  end.
Record cfg := mkCfg { c_pre : string; c_epochs : Z; c_samples : Z; c_cases : string; c_seed : pyarg; c_retrain : bool; c_sepochs : Z }.
(** an integer of at least 1 *)
Definition positive (v : pyarg) : res Z :=
  match as_int v with None => Err TypeError | Some z => if (z <? 1)%Z then Err ValueError else Ok z end.
(** retrain_surrogate and surrogate_epochs are stored unchecked *)
Definition construct (pre : string) (epochs samples : pyarg) (cases : string) (seed : pyarg) (retrain : bool) (sepochs : Z) : res cfg :=
  if negb (String.eqb pre "wave_breaking") then Err ValueError
  else do e <- positive epochs ;
       do n <- positive samples ;
       if negb (String.eqb cases "N" || String.eqb cases "all")%bool then Err ValueError
       else do neg <- below0 seed ;
            if neg then Err ValueError else Ok (mkCfg pre e n cases seed retrain sepochs).

(** ** Which tokens may be drawn *)
(** get_mask_invalid (continue_train_GPT_all.py:342-373): true is 1.  Words with a t are always masked. *)
Definition mask_of (vars : list string) : list bool :=
  let has v := existsb (String.eqb v) vars in
  map (fun w => negb (contains "t" w
                      || (negb (has "x") && contains "x" w)
                      || (negb (has "y") && (contains "y" w || contains "Laplace" w || contains "BiLaplace" w || contains "Div" w))
                      || (negb (has "z") && (contains "z" w || contains "Div" w)))) vocab.
(** GPT.step (gpt_model.py:290-319): the token drawn has a non-zero filtered probability: it is not masked, and it is one of
    1..4 when the sentence has even length, one of 6.. when it is odd.  (The softmax may still be 0 for some of them.) *)
Definition allowed (mask : list bool) (len k : nat) : bool :=
  nth k mask false && (if Nat.even len then (1 <=? k) && (k <=? 4) else 6 <=? k).
(** The sampling loop (kd_eqgpt.py:199-205) for the draws of the two random sources; None: not a possible sequence of draws. *)
Fixpoint generate (mask : list bool) (s : list nat) (draws : list nat) : option (list nat) :=
  if List.length s <? max_pos - 1 then
    match draws with
    | [] => None
    | d :: ds => if allowed mask (List.length s) d
                 then if d =? tE then Some (s ++ [d]) else generate mask (s ++ [d]) ds
                 else None
    end
  else Some s.
(** kd_eqgpt.py:198-207: start tokens, then the start symbol is removed *)
Definition candidate (mask : list bool) (draws : list nat) : option (list nat) :=
  option_map (@tl nat) (generate mask [tS; tUt; tPlus] draws).

(** ** delete_duplicate (continue_train_GPT_all.py:175-199) *)
(** sentence.pop(-1) if the last token is E: done in place, so it changes the caller's list *)
Definition chop (s : list nat) : list nat := if last s 0 =? tE then removelast s else s.
(** split at '+' *)
Fixpoint split_plus (s : list nat) : list (list nat) :=
  match s with
  | [] => [[]]
  | k :: s' => match split_plus s' with
               | seg :: r => if k =? tPlus then [] :: seg :: r else (k :: seg) :: r
               | [] => [[k]]
               end
  end.
(** l[::2] and l[1::2] *)
Fixpoint evens {A} (l : list A) : list A := match l with [] => [] | x :: l' => x :: match l' with [] => [] | _ :: r => evens r end end.
Definition odds {A} (l : list A) : list A := match l with [] => [] | _ :: r => evens r end.
(** sorted *)
Fixpoint insert (x : nat) (l : list nat) : list nat := match l with [] => [x] | y :: r => if x <=? y then x :: l else y :: insert x r end.
Definition sort (l : list nat) : list nat := fold_right insert [] l.
(** sorted(sentence[::2]) *)
Definition key (seg : list nat) : list nat := sort (evens seg).
Definition list_eqb (a b : list nat) : bool := if list_eq_dec Nat.eq_dec a b then true else false.
(** the loop over the segments with the keys already seen *)
Fixpoint keep (seen : list (list nat)) (segs : list (list nat)) : list (list nat) :=
  match segs with
  | [] => []
  | s :: r => if existsb (list_eqb (key s)) seen then keep seen r else s :: keep (seen ++ [key s]) r
  end.
(** extend and append(2) for each, then pop *)
Definition join_plus (segs : list (list nat)) : list nat := removelast (List.concat (map (fun s => s ++ [tPlus]) segs)).
Definition delete_duplicate (s : list nat) : list nat := join_plus (keep [] (split_plus (chop s))) ++ [tE].

(** ** Arithmetic of numpy on [num]; no signed zero: x / 0 has the sign of x *)
Definition sgn (a : num) : comparison :=
  match a with NInf => Lt | PInf => Gt | NaN => Eq | Fin q => (q ?= 0)%Q end.
Definition inf_of (c : comparison) : num := match c with Lt => NInf | Gt => PInf | Eq => NaN end.
Definition csign (a b : comparison) : comparison := match a, b with Eq, _ | _, Eq => Eq | Lt, Lt | Gt, Gt => Gt | _, _ => Lt end.
Definition nmul (a b : num) : num :=
  match a, b with
  | NaN, _ | _, NaN => NaN
  | Fin x, Fin y => Fin (x * y)
  | _, _ => inf_of (csign (sgn a) (sgn b))
  end.
Definition ndiv (a b : num) : num :=
  match a, b with
  | NaN, _ | _, NaN => NaN
  | Fin x, Fin y => if Qeq_bool y 0 then inf_of (sgn a) else Fin (x / y)
  | Fin _, _ => Fin 0
  | _, Fin y => if Qeq_bool y 0 then a else inf_of (csign (sgn a) (sgn b))
  | _, _ => NaN
  end.
Definition nadd (a b : num) : num :=
  match a, b with
  | NaN, _ | _, NaN => NaN
  | Fin x, Fin y => Fin (x + y)
  | PInf, NInf | NInf, PInf => NaN
  | PInf, _ | _, PInf => PInf
  | _, _ => NInf
  end.
(** a == b for floats *)
Definition num_eqb (a b : num) : bool := nle a b && nle b a.
Definition map2 {A B C} (f : A -> B -> C) (a : list A) (b : list B) : list C := map (fun p => f (fst p) (snd p)) (combine a b).
Definition has_nan (c : list num) : bool := existsb is_nan c.

(** ** calculate_reward (continue_train_GPT_all.py:211-338) *)
Section Reward.
(** One case: its number of points and the values of a word there (calculate_terms) *)
Record case := mkCase { n_points : nat; value : nat -> list num }.
(** np.linalg.lstsq(columns, target)[0]; None is LinAlgError.  lg is np.log10 *)
Context (lsq : list (list Q) -> list Q -> option (list Q)) (lg : nat -> Q).

(** the loop over terms and operators (226-251): A_column is None while it is the number 1; div is divide_flag *)
Fixpoint columns (val : nat -> list num) (pairs : list (nat * nat)) (acc : option (list num)) (div : bool) : list (list num) :=
  match pairs with
  | [] => []
  | (t, o) :: r =>
      let acc' := match acc with
                  | None => map (fun v => if div then ndiv (Fin 1) v else v) (val t)
                  | Some c => map2 (if div then ndiv else nmul) c (val t)
                  end in
      if o =? tPlus then acc' :: columns val r None false
      else if o =? tTimes then columns val r (Some acc') false
      else if o =? tDiv then columns val r (Some acc') true
      else if o =? tE then acc' :: columns val r (Some acc') false
      else columns val r (Some acc') false
  end.
(** delete_dulplicate_A_column (201-209): later columns equal (as lists of floats) to an earlier one are dropped *)
Definition col_eqb (a b : list num) : bool := (List.length a =? List.length b) && forallb (fun p => num_eqb (fst p) (snd p)) (combine a b).
Fixpoint distinct_cols (seen : list (list num)) (cols : list (list num)) : list (list num) :=
  match cols with
  | [] => []
  | c :: r => if existsb (col_eqb c) seen then distinct_cols seen r else c :: distinct_cols (seen ++ [c]) r
  end.
(** rows without an infinity (253-261) *)
Definition is_inf (a : num) : bool := match a with PInf | NInf => true | _ => false end.
Definition finite_rows (n : nat) (cols : list (list num)) : list nat :=
  filter (fun p => forallb (fun c => negb (is_inf (nth p c NaN))) cols) (seq 0 n).
Definition take_rows (rows : list nat) (c : list num) : list num := map (fun p => nth p c NaN) rows.
Definition qof (a : num) : Q := match a with Fin q => q | _ => 0%Q end.
Definition qsum (l : list Q) : Q := fold_right Qplus 0%Q l.
(** A[:, 1:].dot(x) *)
Definition rhs (n : nat) (cols : list (list Q)) (x : list Q) : list Q :=
  map (fun p => qsum (map (fun kc => (fst kc * nth p (snd kc) 0)%Q) (combine x cols))) (seq 0 n).
(** R2 (285) *)
Definition r2 (lhs r : list Q) : num :=
  let mu := (qsum lhs / inject_Z (Z.of_nat (List.length lhs)))%Q in
  let sse := qsum (map2 (fun a b => ((a - b) * (a - b))%Q) lhs r) in
  let sst := qsum (map (fun a => ((a - mu) * (a - mu))%Q) lhs) in
  if Qeq_bool sst 0 then (if Qeq_bool sse 0 then NaN else NInf) else Fin (1 - sse / sst)%Q.
(** one case (222-299): what is appended to all_reward, if anything *)
Definition case_reward (c : case) (pairs : list (nat * nat)) : option num :=
  let cols := distinct_cols [] (columns (value c) pairs None false) in
  let rows := finite_rows (n_points c) cols in
  let cols := map (take_rows rows) cols in
  if existsb has_nan cols then None
  else match map (map qof) cols with
       | [] => None
       | b :: rest =>
           match lsq rest (map Qopp b) with
           | None => None
           | Some x => Some (nmul (Fin (1 - (2 # 100) * lg (List.length cols))%Q)
                                  (r2 (map Qopp b) (rhs (List.length rows) rest x)))
           end
       end.
(** np.mean; of an empty array it is NaN *)
Definition nmean (l : list num) : num :=
  match l with [] => NaN | _ => ndiv (fold_right nadd (Fin 0) l) (Fin (inject_Z (Z.of_nat (List.length l)))) end.
(** the forbidden combinations (303-308) *)
Definition subset (a b : list nat) : bool := forallb (fun x => existsb (Nat.eqb x) b) a.
Definition forbidden (terms : list nat) : bool :=
  existsb (fun ws => subset (map tok ws) terms)
    [["u"; "sin(u)"]; ["u"; "sinh(u)"]; ["sin(u)"; "sinh(u)"]; ["u"; "u^2"; "u^3"]; ["x"; "sinx"]].
(** the equation text with the square roots renamed (310-316) *)
Definition check_text (s : list nat) : string :=
  String.concat "" (map (fun k => if String.eqb (word k) "sqrt(x)" then "sqr(x)" else if String.eqb (word k) "sqrt(u)" then "sqr(u)" else word k) s).
(** every variable occurs (318-322) *)
Definition mentions (vars : list string) (s : list nat) : bool :=
  forallb (fun v => contains v (check_text s) || contains "Div" (check_text s) || contains "Laplace" (check_text s)) vars.
(** the sentence can be evaluated (220-223) *)
Definition well_formed (s : list nat) : bool :=
  (fold_right Nat.max 0 (odds s) <=? 4) && (List.length (odds s) =? List.length (evens s)).
Definition reward (cases : list case) (vars : list string) (s0 : list nat) : num :=
  let s := delete_duplicate s0 in
  let base := if well_formed s
              then nmean (flat_map (fun c => match case_reward c (combine (evens s) (odds s)) with Some r => [r] | None => [] end) cases)
              else Fin 0 in
  let base := if forbidden (evens s) then Fin 0 else base in
  if mentions vars s then base else Fin 0.
(** mask_invalid[term] = 0 for words with a NaN (233-235); in place *)
Fixpoint set_false (k : nat) (m : list bool) : list bool :=
  match m with [] => [] | b :: r => match k with 0 => false :: r | S k' => b :: set_false k' r end end.
Definition mask_after (cases : list case) (s0 : list nat) (mask : list bool) : list bool :=
  let s := delete_duplicate s0 in
  if well_formed s
  then fold_left (fun m c => fold_left (fun m t => if has_nan (value c t) then set_false t m else m) (evens s) m) cases mask
  else mask.

(** ** The search (kd_eqgpt.py:186-245) *)
(** One epoch of sampling: the candidates as stored (calculate_reward removes their E in place) with their rewards *)
Fixpoint sample_epoch (cases : list case) (vars : list string) (mask : list bool) (draws : list (list nat)) : option (list (list nat * num) * list bool) :=
  match draws with
  | [] => Some ([], mask)
  | d :: ds =>
      match candidate mask d with
      | None => None
      | Some s =>
          match sample_epoch cases vars (mask_after cases s mask) ds with
          | None => None
          | Some (l, m) => Some ((chop s, reward cases vars s) :: l, m)
          end
      end
  end.
(** All epochs: the mask is carried on (186-218); each epoch comes with its draws *)
Fixpoint sample_all (cases : list case) (vars : list string) (mask : list bool) (epochs : list (list (list nat))) : option (list (list (list nat * num))) :=
  match epochs with
  | [] => Some []
  | e :: r => match sample_epoch cases vars mask e with
              | None => None
              | Some (l, m) => option_map (cons l) (sample_all cases vars m r)
              end
  end.
End Reward.
(** _VARIABLES (kd_eqgpt.py:60) *)
Definition variables : list string := ["t"; "x"].

(** find_min_no_repeat (continue_train_GPT_all.py:375-389): [ranked] is the answer of torch.topk over the whole epoch, pairs of
    candidate and reward, greatest first.  A NaN is never "in" the list. *)
Fixpoint pick {A} (ranked : list (A * num)) (got : list (A * num)) : list (A * num) :=
  match ranked with
  | [] => got
  | (s, a) :: r =>
      let got' := if existsb (fun g => num_eqb (snd g) a) got then got else got ++ [(s, a)] in
      if List.length got' =? 10 then got' else pick r got'
  end.
Definition find_min_no_repeat {A} (ranked : list (A * num)) : list (A * num) := pick ranked [].
(** _update_top10 (kd_eqgpt.py:445-463): insert before the first smaller award, drop the last *)
Fixpoint insert_before {A} (x : A * num) (l : list (A * num)) : list (A * num) :=
  match l with
  | [] => []
  | y :: r => if nlt (snd y) (snd x) then x :: l else y :: insert_before x r
  end.
Definition offer {A} (best : list (A * num)) (x : A * num) : list (A * num) :=
  if negb (existsb (fun y => nlt (snd y) (snd x)) best) then best
  else if existsb (fun y => num_eqb (snd x) (snd y)) best then best
  else removelast (insert_before x best).
Definition update_top10 {A} (best : option (list (A * num))) (ranked : list (A * num)) : list (A * num) :=
  match best with
  | None => find_min_no_repeat ranked
  | Some b => fold_left offer (find_min_no_repeat ranked) b
  end.
Fixpoint search {A} (best : option (list (A * num))) (epochs : list (list (A * num))) : option (list (A * num)) :=
  match epochs with [] => best | e :: r => search (Some (update_top10 best e)) r end.

(** _format_results (kd_eqgpt.py:493-520) of one sentence *)
Definition format_tokens (s : list nat) : list nat :=
  let d := delete_duplicate s in
  let d := if last d 0 =? tE then removelast d else d in
  if existsb (Nat.eqb tS) d then d else tS :: d ++ [tE].
(** "".join(vis[1:-1]) *)
Definition equation_text (s : list nat) : string := String.concat "" (map word (removelast (tl (format_tokens s)))).
(** The dictionary returned (240-245) *)
Record outcome := mkOut { o_equations : list string; o_rewards : list num; o_best : string; o_best_reward : num }.
Definition result (best : option (list (list nat * num))) : outcome :=
  let l := match best with None => [] | Some b => b end in
  let eqs := map (fun p => equation_text (fst p)) l in
  let rs := map snd l in
  mkOut eqs rs (hd "" eqs) (hd (Fin 0) rs).
