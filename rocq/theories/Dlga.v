(** Model of the genetic search of DLGA (kd/model/dlga.py:230-566) and of the overrides of
    KD_DLGA (kd/model/kd_dlga.py:72-224).  A genome is a Python list object: the population
    [chrom] is a list of references into [store], so that sharing between individuals is
    visible.  Module lists are never shared (cross_over copies them, sorted and pickle.load
    build new ones), so they are plain values inside a genome.  The result of
    translate_DNA + get_fitness on a genome (coefficients, score, left side name) is an
    arbitrary function [fit]; the code gets it from the fixed library matrix by an SVD.
    Every random draw is an argument; a draw below n is [raw mod n].
    Not modelled: printing, the text log, the evolution_history records. *)
From Verif Require Import Base Num.
Local Open Scope nat_scope.

Definition modul := list nat.
Definition genome := list modul.

(** dlga.py:77-84 and kd_dlga.py:20: [kd] tells KD_DLGA from DLGA, [nlib] is 4 in DLGA
    (randint(0, 3)) and library_size in KD_DLGA, [mlen] is max_length. *)
Record cfg := mkCfg { kd : bool; nlib : nat; mlen : nat; psize : nat; ngen : nat }.

(** The draws of one module: at step i the raw gene and whether to stop; of one genome: at
    step i the draws of the module and whether to stop. *)
Definition mdraw := nat -> nat * bool.
Definition gdraw := nat -> mdraw * bool.

(** random_module (dlga.py:230-243, kd_dlga.py:72-79) *)
Fixpoint module_loop (n k i : nat) (d : mdraw) : modul :=
  match k with
  | 0 => []
  | S k' => if n =? 0 then [] else (fst (d i) mod n) :: (if snd (d i) then [] else module_loop n k' (S i) d)
  end.
Definition random_module (c : cfg) (d : mdraw) : modul := module_loop (nlib c) (mlen c) 0 d.

(** sorted on a list of integers *)
Fixpoint insert (x : nat) (l : list nat) : list nat :=
  match l with [] => [x] | y :: l' => if x <=? y then x :: l else y :: insert x l' end.
Fixpoint sorted (l : list nat) : list nat := match l with [] => [] | x :: l' => insert x (sorted l') end.

(** random_genome (dlga.py:245-258, kd_dlga.py:101-107).  KD_DLGA drops empty modules; DLGA
    never draws one (its library has 4 entries and the loop body runs only if max_length > 0). *)
Fixpoint genome_loop (c : cfg) (k i : nat) (d : gdraw) : genome :=
  match k with
  | 0 => []
  | S k' =>
      let m := random_module c (fst (d i)) in
      (match m with [] => [] | _ => [sorted m] end) ++ (if snd (d i) then [] else genome_loop c k' (S i) d)
  end.
Definition random_genome (c : cfg) (d : gdraw) : genome := genome_loop c (mlen c) 0 d.

(** Python list primitives: l[i], l[i] = x, x in l, l.pop(i). *)
Definition at_ {A} (l : list A) (i : nat) : res A := match nth_error l i with Some x => Ok x | None => Err IndexError end.
Fixpoint upd {A} (l : list A) (i : nat) (x : A) : list A :=
  match l, i with [], _ => [] | _ :: l', 0 => x :: l' | y :: l', S i' => y :: upd l' i' x end.
Definition mod_eqb (a b : modul) : bool := if list_eq_dec Nat.eq_dec a b then true else false.
Definition inm (m : modul) (g : genome) : bool := existsb (mod_eqb m) g.
Definition pop {A} (l : list A) (i : nat) : list A := firstn i l ++ skipn (S i) l.

(** The draws of one generation: the two positions of the i-th crossing; for individual i
    the module to add, the position to delete, and (module, position, gene) to mutate, or
    None when the rate test fails; the genomes that refill the population. *)
Record draws := mkDraws {
  d_x1 : nat -> nat; d_x2 : nat -> nat;
  d_add : nat -> option mdraw; d_del : nat -> option nat; d_mut : nat -> option (nat * nat * nat);
  d_fill : nat -> gdraw }.

Section Ga.
Context {C : Type}.
Variables (fit : genome -> num * (C * string)) (nocoef : C).

(** self.Chrom (references) with the heap, self.Fitness, self.coef, self.name (the last two
    do not exist before the first selection) and self.fitness_history. *)
Record ga := mkGa {
  store : list genome; chrom : list nat;
  fitn : list num; coefs : option (list C); names : option (list string); hist : list num }.

(** The genome an individual refers to. *)
Definition ind (s : ga) (i : nat) : res genome := do a <- at_ (chrom s) i ; at_ (store s) a.
Definition set_store (s : ga) (st : list genome) : ga := mkGa st (chrom s) (fitn s) (coefs s) (names s) (hist s).
Definition set_pop (s : ga) (st : list genome) (ch : list nat) : ga := mkGa st ch (fitn s) (coefs s) (names s) (hist s).

(** One turn of cross_over (dlga.py:329-338).  Chrom1[i] is Chrom[2i], Chrom2[i] is
    Chrom[2i+1]; np.random.randint(0, 0) raises ValueError.  If both names refer to the same
    list the second assignment sees the first. *)
Definition cross_one (d : draws) (s : ga) (i : nat) : res ga :=
  do a <- at_ (chrom s) (2 * i) ;
  do ga_ <- at_ (store s) a ;
  if List.length ga_ =? 0 then Err ValueError else
  do b <- at_ (chrom s) (2 * i + 1) ;
  do gb <- at_ (store s) b ;
  if List.length gb =? 0 then Err ValueError else
  let n1 := d_x1 d i mod List.length ga_ in
  let n2 := d_x2 d i mod List.length gb in
  do father <- at_ ga_ n1 ;
  do mother <- at_ gb n2 ;
  let st1 := upd (store s) a (upd ga_ n1 mother) in
  do gb1 <- at_ st1 b ;
  Ok (set_store s (upd st1 b (upd gb1 n2 father))).
Fixpoint loop (f : ga -> nat -> res ga) (is : list nat) (s : ga) : res ga :=
  match is with [] => Ok s | i :: is' => do s' <- f s i ; loop f is' s' end.
(** cross_over (dlga.py:321-341): the number of turns is int(n_generations / 2); the final
    slice assignments put the same references back. *)
Definition cross_over (c : cfg) (d : draws) (s : ga) : res ga :=
  loop (cross_one d) (seq 0 (ngen c / 2)) s.

(** The three steps of mutation for one genome (dlga.py:352-372, kd_dlga.py:84-97). *)
Definition add_step (c : cfg) (o : option mdraw) (g : genome) : genome :=
  match o with
  | None => g
  | Some md => let m := random_module c md in
               if (kd c && (List.length m =? 0)) || inm m g then g else g ++ [m]
  end.
Definition del_step (o : option nat) (g : genome) : genome :=
  match o with None => g | Some r => if 1 <? List.length g then pop g (r mod List.length g) else g end.
Definition mut_step (c : cfg) (o : option (nat * nat * nat)) (g : genome) : res genome :=
  match o with
  | None => Ok g
  | Some (r1, r2, r3) =>
      if (kd c && (nlib c =? 0)) || (List.length g =? 0) then Ok g else
      let n1 := r1 mod List.length g in
      do m <- at_ g n1 ;
      if List.length m =? 0 then (if kd c then Ok g else Err ValueError)
      else Ok (upd g n1 (upd m (r2 mod List.length m) (r3 mod nlib c)))
  end.
Definition mutate_one (c : cfg) (d : draws) (s : ga) (i : nat) : res ga :=
  do a <- at_ (chrom s) i ;
  do g <- at_ (store s) a ;
  do g' <- mut_step c (d_mut d i) (del_step (d_del d i) (add_step c (d_add d i) g)) ;
  Ok (set_store s (upd (store s) a g')).
(** mutation (dlga.py:343-374, kd_dlga.py:81-99) *)
Definition mutation (c : cfg) (d : draws) (s : ga) : res ga := loop (mutate_one c d) (seq 0 (psize c)) s.

(** The inner loop of delete_duplicates (dlga.py:443-446) *)
Fixpoint dedup (g acc : genome) : genome :=
  match g with [] => acc | m :: g' => dedup g' (if inm (sorted m) acc then acc else acc ++ [sorted m]) end.
(** One individual: Chrom[i] becomes a new list. *)
Definition dedup_one (s : ga) (i : nat) : res ga :=
  do g <- ind s i ;
  Ok (set_pop s (store s ++ [dedup g []]) (upd (chrom s) i (List.length (store s)))).
(** delete_duplicates (dlga.py:435-449) *)
Definition delete_duplicates (c : cfg) (s : ga) : res ga := loop dedup_one (seq 0 (psize c)) s.

(** The score of one individual in select: KD_DLGA gives an empty genome infinity, an empty
    coefficient list and an empty name without evaluating it (kd_dlga.py:178-182). *)
Definition eval (c : cfg) (g : genome) : num * (C * string) :=
  if kd c && (List.length g =? 0) then (PInf, (nocoef, ""%string)) else fit g.
(** fitness_list.index(x) *)
Fixpoint index (l : list num) (x : num) : res nat :=
  match l with
  | [] => Err ValueError
  | y :: l' => if nle x y && nle y x then Ok 0 else do i <- index l' x ; Ok (S i)
  end.
(** min of a non-empty list *)
Definition pymin (l : list num) : res num :=
  match l with [] => Err ValueError | x :: l' => Ok (fold_left (fun m y => if nlt y m then y else m) l' x) end.
(** Refill: new genomes are new objects. *)
Definition refill (c : cfg) (d : draws) (k : nat) : list genome := map (fun i => random_genome c (d_fill d i)) (seq 0 k).
(** select (dlga.py:376-433, kd_dlga.py:172-224).  heapq.nsmallest(k, l) is sorted(l)[:k].
    DLGA refills int(pop_size / 2), KD_DLGA up to pop_size; DLGA takes min(Fitness)
    unconditionally. *)
Definition select (c : cfg) (d : draws) (s : ga) : res ga :=
  do gs <- mapM (ind s) (seq 0 (psize c)) ;
  let es := map (eval c) gs in
  let fl := map fst es in
  do re1 <- mapM (index fl) (firstn (psize c / 2) (nsort fl)) ;
  do refs <- mapM (at_ (chrom s)) re1 ;
  do fs <- mapM (at_ fl) re1 ;
  do cs <- mapM (fun i => do e <- at_ es i ; Ok (fst (snd e))) re1 ;
  do ns <- mapM (fun i => do e <- at_ es i ; Ok (snd (snd e))) re1 ;
  let k := if kd c then psize c - List.length refs else psize c / 2 in
  let ch := refs ++ seq (List.length (store s)) k in
  do h <- (if kd c && ((List.length fs =? 0) || (List.length ch =? 0)) then Ok (hist s)
           else do m <- pymin fs ; Ok (hist s ++ [m])) ;
  Ok (mkGa (store s ++ refill c d k) ch fs (Some cs) (Some ns) h).

(** One turn of the loop of evolution (dlga.py:527-542, kd_dlga.py:138-156): the first
    individual is pickled, i.e. copied by value, before the operators and put back after
    them as a new object (KD_DLGA: unless it is empty).  With pop_size = 0 KD_DLGA has no
    first individual; whatever it reloads is dropped by select.  [offspring] is the
    population that select scores. *)
Definition offspring (c : cfg) (d : draws) (s : ga) : res ga :=
  do best <- (if kd c && (List.length (chrom s) =? 0) then Ok [] else ind s 0) ;
  do s1 <- cross_over c d s ;
  do s2 <- mutation c d s1 ;
  do s3 <- delete_duplicates c s2 ;
  Ok (if kd c && (List.length best =? 0) then s3
      else set_pop s3 (store s3 ++ [best]) (upd (chrom s3) 0 (List.length (store s3)))).
Definition generation (c : cfg) (d : draws) (s : ga) : res ga := do s4 <- offspring c d s ; select c d s4.
Fixpoint generations (c : cfg) (ds : list draws) (s : ga) : res ga :=
  match ds with [] => Ok s | d :: ds' => do s' <- generation c d s ; generations c ds' s' end.
(** The initial population (dlga.py:501-510, kd_dlga.py:123-136); the coefficients computed
    here are not kept. *)
Definition start (c : cfg) (d0 : nat -> gdraw) (h : list num) : res ga :=
  let gs := map (fun i => random_genome c (d0 i)) (seq 0 (psize c)) in
  delete_duplicates c (mkGa gs (seq 0 (psize c)) (map (fun g => fst (eval c g)) gs) None None h).
(** Chrom[0], coef[0], Fitness[0], name[0] (dlga.py:566, kd_dlga.py:168-170); a missing
    attribute is an AttributeError. *)
Definition answer (c : cfg) (s : ga) : res (genome * C * num * string) :=
  if kd c && (List.length (chrom s) =? 0) then Ok ([], nocoef, PInf, ""%string) else
  do g <- ind s 0 ;
  do cs <- (match coefs s with None => Err AttributeError | Some l => Ok l end) ;
  do k <- at_ cs 0 ;
  do f <- at_ (fitn s) 0 ;
  do ns <- (match names s with None => Err AttributeError | Some l => Ok l end) ;
  do n <- at_ ns 0 ;
  Ok (g, k, f, n).
(** evolution (dlga.py:499-566, kd_dlga.py:123-170) for n_generations = length ds; [h] is
    the fitness_history left by earlier calls on the same model. *)
Definition evolution (c : cfg) (d0 : nat -> gdraw) (ds : list draws) (h : list num) : res (ga * (genome * C * num * string)) :=
  do s0 <- start c d0 h ;
  do s <- generations c ds s0 ;
  do r <- answer c s ; Ok (s, r).
End Ga.
Arguments ga : clear implicits.
