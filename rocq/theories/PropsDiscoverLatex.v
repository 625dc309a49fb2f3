(** C114: the text KD_Discover hands to SymPy for a term says what the term is.  C115: the LaTeX equation shows every term with its coefficient. *)
From Coq Require Import QArith Qabs Qround Ascii Ring Lqa.
From Verif Require Import Base DlgaEq DiscoverViz DiscoverLatex.
Local Open Scope string_scope.
Local Open Scope nat_scope.
Local Open Scope list_scope.
Local Infix "^^" := String.append (at level 60, right associativity).

(** ** Specification: reading a SymPy expression
    expr  ::= prod [ + prod ]      prod ::= unary [ / unary ]      unary ::= - unary | ( expr ) | NAME ( expr { , expr } ) | NAME *)
Inductive tok := TName (s : string) | TL | TR | TComma | TPlus | TMinus | TSlash.
Definition specials : list (ascii * list tok) := [("(", [TL]); (")", [TR]); (",", [TComma]); ("+", [TPlus]); ("-", [TMinus]); ("/", [TSlash]); (" ", [])]%char.
Definition special (a : ascii) : option (list tok) := option_map snd (find (fun p => Ascii.eqb (fst p) a) specials).
Definition flush (acc : string) (l : list tok) : list tok := match acc with EmptyString => l | _ => TName acc :: l end.
Fixpoint lexa (acc s : string) : list tok :=
  match s with
  | EmptyString => flush acc []
  | String c r => match special c with Some t => flush acc (t ++ lexa "" r) | None => lexa (acc ^^ String c EmptyString) r end
  end.
Definition lex : string -> list tok := lexa "".
Inductive sexp := EName (s : string) | ECall (f : string) (l : list sexp) | EPlus (a b : sexp) | EDiv (a b : sexp) | ENeg (a : sexp).
Fixpoint expr (k : nat) (ts : list tok) {struct k} : option (sexp * list tok) :=
  match k with
  | O => None
  | S k => match prod k ts with Some (a, TPlus :: r) => match prod k r with Some (b, r') => Some (EPlus a b, r') | None => None end | x => x end
  end
with prod (k : nat) (ts : list tok) {struct k} : option (sexp * list tok) :=
  match k with
  | O => None
  | S k => match unary k ts with Some (a, TSlash :: r) => match unary k r with Some (b, r') => Some (EDiv a b, r') | None => None end | x => x end
  end
with unary (k : nat) (ts : list tok) {struct k} : option (sexp * list tok) :=
  match k with
  | O => None
  | S k => match ts with
           | TMinus :: r => match unary k r with Some (a, r') => Some (ENeg a, r') | None => None end
           | TL :: r => match expr k r with Some (a, TR :: r') => Some (a, r') | _ => None end
           | TName s :: TL :: r => match args k r with Some (l, r') => Some (ECall s l, r') | None => None end
           | TName s :: r => Some (EName s, r)
           | _ => None
           end
  end
with args (k : nat) (ts : list tok) {struct k} : option (list sexp * list tok) :=
  match k with
  | O => None
  | S k => match expr k ts with
           | Some (a, TComma :: r) => match args k r with Some (l, r') => Some (a :: l, r') | None => None end
           | Some (a, TR :: r) => Some ([a], r)
           | _ => None
           end
  end.
(** [s] reads as [e] *)
Definition reads (s : string) (e : sexp) : Prop := exists k, expr k (lex s) = Some (e, []).

(** ** Specification: values *)
(** a commutative ring with an inverse, functions, derivatives by variable and a Laplacian *)
Record algebra := mkAlgebra {
  carrier : Type; zero : carrier; one : carrier; plus : carrier -> carrier -> carrier; times : carrier -> carrier -> carrier; minus : carrier -> carrier -> carrier; opp : carrier -> carrier;
  is_ring : ring_theory zero one plus times minus opp eq;
  inv : carrier -> carrier; func : string -> carrier -> carrier; deriv : string -> carrier -> carrier; laplace : carrier -> carrier
}.
Section Values.
Context (A : algebra) (env : string -> carrier A).
Fixpoint nnum (n : nat) : carrier A := match n with 0 => zero A | S m => plus A (one A) (nnum m) end.
Fixpoint npow (a : carrier A) (n : nat) : carrier A := match n with 0 => one A | S m => times A a (npow a m) end.
Definition digit (a : ascii) : option nat := let n := nat_of_ascii a in if (48 <=? n) && (n <=? 57) then Some (n - 48) else None.
(** a number, or a name *)
Definition number (s : string) : option nat := match s with String a EmptyString => digit a | _ => None end.
Definition atom (s : string) : carrier A := match number s with Some n => nnum n | None => env s end.
(** what SymPy understands by an expression *)
Fixpoint vars_of (l : list sexp) : option (list string) :=
  match l with [] => Some [] | EName v :: r => option_map (cons v) (vars_of r) | _ => None end.
Definition call1 (f : string) : option (carrier A -> carrier A) :=
  if existsb (String.eqb f) ["sin"; "cos"; "tan"; "exp"; "log"; "sqrt"; "tanh"; "abs"] then Some (func A f)
  else if String.eqb f "Abs" then Some (func A "abs") else if String.eqb f "laplacian" then Some (laplace A) else None.
Fixpoint mean (e : sexp) : option (carrier A) :=
  match e with
  | EName s => Some (atom s)
  | EPlus a b => match mean a, mean b with Some x, Some y => Some (plus A x y) | _, _ => None end
  | EDiv a b => match mean a, mean b with Some x, Some y => Some (times A x (inv A y)) | _, _ => None end
  | ENeg a => option_map (opp A) (mean a)
  | ECall f [a] => match call1 f, mean a with Some g, Some x => Some (g x) | _, _ => None end
  | ECall f (a :: r) =>
      if String.eqb f "Derivative" then match mean a, vars_of r with Some x, Some vs => Some (fold_left (fun y v => deriv A v y) vs x) | _, _ => None end
      else match r with
           | [b] =>
               if String.eqb f "Add" then match mean a, mean b with Some x, Some y => Some (plus A x y) | _, _ => None end
               else if String.eqb f "Mul" then match mean a, mean b with Some x, Some y => Some (times A x y) | _, _ => None end
               else if String.eqb f "Pow" then
                 match mean a, b with
                 | Some x, EName d => option_map (npow x) (number d)
                 | Some x, ENeg (EName d) => option_map (fun n => inv A (npow x n)) (number d)
                 | _, _ => None
                 end
               else None
           | _ => None
           end
  | ECall _ [] => None
  end.
(** what a term is in the search (functions.py:26-129); a derivative is taken in the variable named by its second argument *)
Definition unary_op (op : string) : option (carrier A -> carrier A) :=
  let tab := [("n2", fun x => npow x 2); ("n3", fun x => npow x 3); ("n4", fun x => npow x 4); ("n5", fun x => npow x 5);
              ("neg", opp A); ("inv", inv A); ("lap", laplace A); ("lap_3", laplace A);
              ("sigmoid", fun x => inv A (plus A (one A) (func A "exp" (opp A x)))); ("expneg", fun x => func A "exp" (opp A x));
              ("logabs", fun x => func A "log" (func A "abs" x)); ("sin", func A "sin"); ("cos", func A "cos"); ("tan", func A "tan");
              ("exp", func A "exp"); ("log", func A "log"); ("sqrt", func A "sqrt"); ("abs", func A "abs"); ("tanh", func A "tanh")] in
  option_map snd (find (fun p => String.eqb (fst p) op) tab).
Definition binary_op (op : string) : option (carrier A -> carrier A -> carrier A) :=
  let tab := [("add", plus A); ("Add", plus A); ("sub", minus A); ("mul", times A); ("Mul", times A); ("div", fun x y => times A x (inv A y))] in
  option_map snd (find (fun p => String.eqb (fst p) op) tab).
Definition order_of (op : string) : option nat :=
  option_map snd (find (fun p => String.eqb (fst p) op) [("diff", 1); ("diff2", 2); ("diff3", 3); ("diff4", 4); ("Diff", 1); ("Diff2", 2); ("Diff_3", 1); ("Diff2_3", 2)]).
Fixpoint nder (v : string) (k : nat) (x : carrier A) : carrier A := match k with 0 => x | S k' => deriv A v (nder v k' x) end.
Fixpoint sem (n : node) : option (carrier A) :=
  match n with
  | Nd v [] => Some (atom v)
  | Nd v [a] => match unary_op (base_name v), sem a with Some g, Some x => Some (g x) | _, _ => None end
  | Nd v [a; b] =>
      match order_of (base_name v), b with
      | Some k, Nd x [] => option_map (nder x k) (sem a)
      | Some _, _ => None
      | None, _ => match binary_op (base_name v), sem a, sem b with Some g, Some x, Some y => Some (g x y) | _, _, _ => None end
      end
  | _ => None
  end.
End Values.
(** names without spaces and punctuation *)
Fixpoint plain_chars (s : string) : Prop := match s with EmptyString => True | String a r => special a = None /\ plain_chars r end.
Definition plain (s : string) : Prop := s <> "" /\ plain_chars s.
(** The terms: [base_name] is the name without the ending _t of the torch variants *)
Inductive term : node -> Prop :=
| t_leaf v : plain v -> term (Nd v [])
| t_bin v a b : In (base_name v) ["add"; "sub"; "mul"; "div"] \/ In v ["Add"; "Mul"] -> term a -> term b -> term (Nd v [a; b])
| t_un v a : In (base_name v) ["n2"; "n3"; "n4"; "n5"; "lap"; "lap_3"; "sigmoid"; "expneg"; "logabs"; "sin"; "cos"; "tan"; "exp"; "log"; "sqrt"; "abs"] \/ v = "tanh" -> term a -> term (Nd v [a])
| t_der v a x : In (base_name v) ["diff"; "diff2"; "diff3"; "diff4"; "Diff"; "Diff2"; "Diff_3"; "Diff2_3"] -> term a -> plain x -> term (Nd v [a; Nd x []]).

(** ** Lemmas: text *)
Lemma app_assoc_s a b c : (a ^^ b) ^^ c = a ^^ b ^^ c. Proof. induction a; cbn; congruence. Qed.
Lemma app_nil_s a : a ^^ "" = a. Proof. induction a; cbn; congruence. Qed.
Definition opens (s : string) : Prop := match s with EmptyString => True | String a _ => special a <> None end.
Lemma lexa_split a : forall acc b, opens b -> lexa acc (a ^^ b) = lexa acc a ++ lex b.
Proof.
  induction a as [|c a IH]; intros acc b Ob.
  - cbn [String.append lexa]. destruct b as [|c b]; [cbn; rewrite app_nil_r; reflexivity|]. unfold lex. cbn [lexa]. cbn [opens] in Ob. destruct (special c) as [t|]; [|congruence].
    destruct acc; reflexivity.
  - cbn [String.append lexa]. destruct (special c) as [t|]; [|apply IH; exact Ob]. rewrite IH by exact Ob. destruct acc; cbn [flush]; rewrite ?app_comm_cons, app_assoc; reflexivity.
Qed.
Lemma lex_split a b : opens b -> lex (a ^^ b) = lex a ++ lex b. Proof. apply lexa_split. Qed.
Lemma lexa_plain s : forall acc, plain_chars s -> lexa acc s = flush (acc ^^ s) [].
Proof. induction s as [|c s IH]; intros acc P; cbn [lexa]; [rewrite app_nil_s; reflexivity|]. destruct P as [-> P]. rewrite IH by exact P. rewrite app_assoc_s. reflexivity. Qed.
Lemma lex_plain s : plain s -> lex s = [TName s].
Proof. intros [N P]. unfold lex. rewrite lexa_plain by exact P. destruct s; [congruence|reflexivity]. Qed.

(** ** Lemmas: reading *)
Definition stop (ts : list tok) : Prop := match ts with [] => True | t :: _ => t = TR \/ t = TComma end.
Definition soft (ts : list tok) : Prop := match ts with TL :: _ => False | _ => True end.
Lemma stop_soft ts : stop ts -> soft ts. Proof. destruct ts as [|[]]; cbn; intuition discriminate. Qed.
(** a unary part, a whole expression *)
Definition RU (ws : list tok) (e : sexp) : Prop := exists k0, forall k ts, k0 <= k -> soft ts -> unary k (ws ++ ts) = Some (e, ts).
Definition RE (ws : list tok) (e : sexp) : Prop := exists k0, forall k ts, k0 <= k -> stop ts -> expr k (ws ++ ts) = Some (e, ts).
Lemma prod_of_unary ws e k0 k ts : (forall k ts, k0 <= k -> soft ts -> unary k (ws ++ ts) = Some (e, ts)) -> S k0 <= k -> soft ts -> (forall r, ts <> TSlash :: r) -> prod k (ws ++ ts) = Some (e, ts).
Proof. intros H K So N. destruct k as [|k]; [lia|]. cbn [prod]. rewrite H by (lia || exact So). destruct ts as [|[] r]; try reflexivity. exfalso. eapply N. reflexivity. Qed.
Lemma RU_RE ws e : RU ws e -> RE ws e.
Proof.
  intros [k0 H]. exists (S (S k0)). intros k ts K St. destruct k as [|k]; [lia|]. cbn [expr]. rewrite (prod_of_unary ws e k0 k ts H) by (lia || (apply stop_soft; exact St) || (intros r ->; destruct St; discriminate)).
  destruct ts as [|[] r]; try reflexivity. destruct St; discriminate.
Qed.
Lemma RU_name s : RU [TName s] (EName s).
Proof. exists 1. intros k ts K So. destruct k as [|k]; [lia|]. cbn [app unary]. destruct ts as [|[] r]; try reflexivity. destruct So. Qed.
Lemma RU_neg ws e : RU ws e -> RU (TMinus :: ws) (ENeg e).
Proof. intros [k0 H]. exists (S k0). intros k ts K So. destruct k as [|k]; [lia|]. cbn [app unary]. rewrite H by (lia || exact So). reflexivity. Qed.
Lemma RU_paren ws e : RE ws e -> RU (TL :: ws ++ [TR]) e.
Proof. intros [k0 H]. exists (S k0). intros k ts K So. destruct k as [|k]; [lia|]. cbn [app unary]. rewrite <- app_assoc. cbn [app]. rewrite H; [reflexivity|lia|cbn; tauto]. Qed.
Lemma RE_div ws e ws' e' : RU ws e -> RU ws' e' -> RE (ws ++ TSlash :: ws') (EDiv e e').
Proof.
  intros [k0 H] [k1 H']. exists (S (S (k0 + k1))). intros k ts K St. destruct k as [|[|k]]; [lia|lia|]. cbn [expr prod]. rewrite <- app_assoc. cbn [app]. rewrite H; [|lia|exact I]. rewrite H'; [|lia|apply stop_soft; exact St].
  destruct ts as [|[] r]; try reflexivity. destruct St; discriminate.
Qed.
Lemma RE_plus ws e ws' e' : RU ws e -> RU ws' e' -> RE (ws ++ TPlus :: ws') (EPlus e e').
Proof.
  intros [k0 H] [k1 H']. exists (S (S (k0 + k1))). intros k ts K St. destruct k as [|k]; [lia|]. cbn [expr]. rewrite <- app_assoc. cbn [app].
  rewrite (prod_of_unary ws e k0 k (TPlus :: ws' ++ ts) H) by (lia || exact I || discriminate). rewrite (prod_of_unary ws' e' k1 k ts H') by (lia || (apply stop_soft; exact St) || (intros r ->; destruct St; discriminate)). reflexivity.
Qed.
Fixpoint commas_t (l : list (list tok)) : list tok := match l with [] => [] | [w] => w | w :: r => w ++ TComma :: commas_t r end.
Lemma RA l es : Forall2 RE l es -> l <> [] -> exists k0, forall k ts, k0 <= k -> args k (commas_t l ++ TR :: ts) = Some (es, ts).
Proof.
  induction 1 as [|w e l es [k0 H] F IH]; intros N; [congruence|]. destruct l as [|w' l].
  - inversion F; subst. exists (S k0). intros k ts K. destruct k as [|k]; [lia|]. cbn [args commas_t]. rewrite H; [reflexivity|lia|cbn; tauto].
  - destruct IH as [k1 H1]; [discriminate|]. exists (S (k0 + k1)). intros k ts K. destruct k as [|k]; [lia|]. cbn [args]. change (commas_t (w :: w' :: l)) with (w ++ TComma :: commas_t (w' :: l)). rewrite <- app_assoc. cbn [app].
    rewrite H; [|lia|cbn; tauto]. rewrite H1 by lia. reflexivity.
Qed.
Lemma RU_call f l es : Forall2 RE l es -> l <> [] -> RU (TName f :: TL :: commas_t l ++ [TR]) (ECall f es).
Proof. intros F N. destruct (RA l es F N) as [k0 H]. exists (S k0). intros k ts K So. destruct k as [|k]; [lia|]. cbn [app unary]. rewrite <- app_assoc. cbn [app]. rewrite H by lia. reflexivity. Qed.
Lemma lex_commas l : lex (commas l) = commas_t (map lex l).
Proof. induction l as [|s l IH]; [reflexivity|]. destruct l as [|s' l]; [reflexivity|]. change (commas (s :: s' :: l)) with (s ^^ ", " ^^ commas (s' :: l)). rewrite lex_split by discriminate. change (lex (", " ^^ commas (s' :: l))) with (TComma :: lex (commas (s' :: l))). rewrite IH. reflexivity. Qed.
(** the text [s] has the reading [e] *)
Definition RD (s : string) (e : sexp) : Prop := RE (lex s) e.
Lemma RD_reads s e : RD s e -> reads s e.
Proof. intros [k0 H]. exists k0. specialize (H k0 [] (le_n _) I). rewrite app_nil_r in H. exact H. Qed.
Lemma RU_RD s e : RU (lex s) e -> RD s e. Proof. apply RU_RE. Qed.
Lemma U_name s : plain s -> RU (lex s) (EName s). Proof. intros P. rewrite lex_plain by exact P. apply RU_name. Qed.
Lemma U_call f l es : plain f -> Forall2 RD l es -> l <> [] -> RU (lex (f ^^ "(" ^^ commas l ^^ ")")) (ECall f es).
Proof.
  intros P F N. rewrite lex_split by discriminate. rewrite lex_plain by exact P. change (lex ("(" ^^ commas l ^^ ")")) with (TL :: lex (commas l ^^ ")")). rewrite lex_split by discriminate. rewrite lex_commas. cbn [app]. apply RU_call.
  - clear N. induction F; constructor; auto.
  - destruct l; [congruence|discriminate].
Qed.
Lemma U_call1 f s e : plain f -> RD s e -> RU (lex (f ^^ "(" ^^ s ^^ ")")) (ECall f [e]).
Proof. intros P H. apply (U_call f [s] [e] P); [repeat constructor; exact H|discriminate]. Qed.
Lemma U_neg s e : RD s e -> RU (lex ("-(" ^^ s ^^ ")")) (ENeg e).
Proof. intros H. change (lex ("-(" ^^ s ^^ ")")) with (TMinus :: TL :: lex (s ^^ ")")). rewrite lex_split by discriminate. apply RU_neg. apply RU_paren. exact H. Qed.
Lemma minus_one : RD "-1" (ENeg (EName "1")).
Proof. apply RU_RE. apply (RU_neg [TName "1"]), RU_name. Qed.
Lemma D_call f l es : plain f -> Forall2 RD l es -> l <> [] -> RD (f ^^ "(" ^^ commas l ^^ ")") (ECall f es).
Proof. intros. apply RU_RD, U_call; assumption. Qed.
Lemma D_sigmoid s e : RD s e -> RD ("1 / (1 + exp(-(" ^^ s ^^ ")))") (EDiv (EName "1") (EPlus (EName "1") (ECall "exp" [ENeg e]))).
Proof.
  intros H. unfold RD. change (lex ("1 / (1 + exp(-(" ^^ s ^^ ")))")) with ([TName "1"] ++ TSlash :: TL :: ([TName "1"] ++ TPlus :: TName "exp" :: TL :: TMinus :: TL :: lex (s ^^ ")))"))).
  rewrite lex_split by discriminate. change (lex ")))") with [TR; TR; TR].
  apply RE_div; [apply RU_name|]. pose proof (RU_paren _ _ (RE_plus _ _ _ _ (RU_name "1") (RU_call "exp" [TMinus :: TL :: lex s ++ [TR]] [ENeg e] ltac:(repeat constructor; apply RU_RE, RU_neg, RU_paren, H) ltac:(discriminate)))) as R.
  cbn [commas_t app] in R. repeat (rewrite <- app_assoc in R; cbn [app] in R). exact R.
Qed.

(** more fuel never changes a reading *)
Lemma more_fuel k : (forall ts x, expr k ts = Some x -> expr (S k) ts = Some x) /\ (forall ts x, prod k ts = Some x -> prod (S k) ts = Some x) /\
  (forall ts x, unary k ts = Some x -> unary (S k) ts = Some x) /\ (forall ts x, args k ts = Some x -> args (S k) ts = Some x).
Proof.
  induction k as [|k (IE & IP & IU & IA)]; [repeat split; intros ts x H; discriminate|]. split; [|split; [|split]]; intros ts x H.
  - change (expr (S (S k)) ts) with (match prod (S k) ts with Some (a, TPlus :: r) => match prod (S k) r with Some (b, r') => Some (EPlus a b, r') | None => None end | x => x end).
    cbn [expr] in H. destruct (prod k ts) as [[a r]|] eqn:E; [|discriminate]. rewrite (IP _ _ E). destruct r as [|[] r]; try exact H. destruct (prod k r) as [[b r']|] eqn:E'; [|discriminate]. rewrite (IP _ _ E'). exact H.
  - change (prod (S (S k)) ts) with (match unary (S k) ts with Some (a, TSlash :: r) => match unary (S k) r with Some (b, r') => Some (EDiv a b, r') | None => None end | x => x end).
    cbn [prod] in H. destruct (unary k ts) as [[a r]|] eqn:E; [|discriminate]. rewrite (IU _ _ E). destruct r as [|[] r]; try exact H. destruct (unary k r) as [[b r']|] eqn:E'; [|discriminate]. rewrite (IU _ _ E'). exact H.
  - destruct ts as [|[s| | | | | |] ts]; try exact H.
    + cbn [unary] in H. destruct ts as [|[] ts]; try exact H. destruct (args k ts) as [[l r]|] eqn:E; [|discriminate]. change (unary (S (S k)) (TName s :: TL :: ts)) with (match args (S k) ts with Some (l, r') => Some (ECall s l, r') | None => None end). rewrite (IA _ _ E). exact H.
    + cbn [unary] in H. destruct (expr k ts) as [[a r]|] eqn:E; [|discriminate]. change (unary (S (S k)) (TL :: ts)) with (match expr (S k) ts with Some (a, TR :: r') => Some (a, r') | _ => None end). rewrite (IE _ _ E). exact H.
    + cbn [unary] in H. destruct (unary k ts) as [[a r]|] eqn:E; [|discriminate]. change (unary (S (S k)) (TMinus :: ts)) with (match unary (S k) ts with Some (a, r') => Some (ENeg a, r') | None => None end). rewrite (IU _ _ E). exact H.
  - change (args (S (S k)) ts) with (match expr (S k) ts with Some (a, TComma :: r) => match args (S k) r with Some (l, r') => Some (a :: l, r') | None => None end | Some (a, TR :: r) => Some ([a], r) | _ => None end).
    cbn [args] in H. destruct (expr k ts) as [[a r]|] eqn:E; [|discriminate]. rewrite (IE _ _ E). destruct r as [|[] r]; try exact H. destruct (args k r) as [[l r']|] eqn:E'; [|discriminate]. rewrite (IA _ _ E'). exact H.
Qed.
Lemma fuel_le k k' ts x : k <= k' -> expr k ts = Some x -> expr k' ts = Some x.
Proof. induction 1 as [|k' L IH]; [auto|]. intros H. apply (more_fuel k'). auto. Qed.
(** ** Theorems *)
(** A text has at most one reading. *)
Theorem C114_one_reading s e e' : reads s e -> reads s e' -> e = e'.
Proof. intros [k H] [k' H']. apply (fuel_le k (k + k')) in H; [|lia]. apply (fuel_le k' (k + k')) in H'; [|lia]. rewrite H in H'. injection H' as <-. reflexivity. Qed.

Ltac norm_text := cbn [commas]; rewrite ?app_assoc_s, ?app_nil_s; reflexivity.
Lemma plain_b s : (s <> "" -> forallb (fun a => match special a with None => true | _ => false end) (list_ascii_of_string s) = true -> plain s).
Proof. intros N H. split; [exact N|]. clear N. induction s as [|a s IH]; [exact I|]. cbn [list_ascii_of_string forallb] in H. apply andb_true_iff in H as [A B]. split; [destruct (special a); [discriminate|reflexivity]|apply IH; exact B]. Qed.
Ltac is_plain := apply plain_b; [discriminate|vm_compute; reflexivity].
Section Sem.
Context (A : algebra) (env : string -> carrier A).
Add Ring ARing : (is_ring A).
Lemma sub_law x y : plus A x (times A y (opp A (plus A (one A) (zero A)))) = minus A x y. Proof. ring. Qed.
Lemma div_law x y : times A x (inv A (times A y (one A))) = times A x (inv A y). Proof. replace (times A y (one A)) with y by ring. reflexivity. Qed.
Lemma atom_one : atom A env "1" = one A. Proof. change (atom A env "1") with (plus A (one A) (zero A)). ring. Qed.
Lemma one_times x : times A (one A) x = x. Proof. ring. Qed.
End Sem.
(** [n] has a text, with a reading that means [n] *)
Definition says (n : node) : Prop := exists s e, to_sympy n = Ok s /\ RD s e /\ forall A env, exists v, mean A env e = Some v /\ sem A env n = Some v.
(** Every term has a text whose reading, in every algebra and for all values of the names, is the value of the term. *)
Theorem C114_text_means_term n : term n -> exists s e, to_sympy n = Ok s /\ reads s e /\ forall A env, exists v, mean A env e = Some v /\ sem A env n = Some v.
Proof.
  intros Tn. assert (says n) as (s & e & Q & R & M); [|exists s, e; split; [exact Q|]; split; [apply RD_reads; exact R|exact M]].
  induction Tn as [v P|v a b O Ta (s & e & Q & R & M) Tb (s' & e' & Q' & R' & M')|v a O Ta (s & e & Q & R & M)|v a x O Ta (s & e & Q & R & M) Px]; unfold says.
  - exists v, (EName v). split; [reflexivity|]. split; [apply RU_RD, U_name; exact P|]. intros A env. eexists. split; reflexivity.
  - assert (E : to_sympy (Nd v [a; b]) = to_text v [s; s']) by (cbn [to_sympy emap]; rewrite Q, Q'; reflexivity). rewrite E. clear E.
    assert (G : forall f, plain f -> RD (f ^^ "(" ^^ s ^^ ", " ^^ s' ^^ ")") (ECall f [e; e'])).
    { intros f Pf. replace (f ^^ "(" ^^ s ^^ ", " ^^ s' ^^ ")") with (f ^^ "(" ^^ commas [s; s'] ^^ ")") by norm_text. apply D_call; [exact Pf|repeat constructor; assumption|discriminate]. }
    assert (G2 : forall f g, plain f -> plain g -> RD (f ^^ "(" ^^ s ^^ ", " ^^ g ^^ "(" ^^ s' ^^ ", -1))") (ECall f [e; ECall g [e'; ENeg (EName "1")]])).
    { intros f g Pf Pg. replace (f ^^ "(" ^^ s ^^ ", " ^^ g ^^ "(" ^^ s' ^^ ", -1))") with (f ^^ "(" ^^ commas [s; g ^^ "(" ^^ commas [s'; "-1"] ^^ ")"] ^^ ")") by norm_text.
      apply D_call; [exact Pf| |discriminate]. repeat constructor; [exact R|]. apply D_call; [exact Pg| |discriminate]. repeat constructor; [exact R'|exact minus_one]. }
    unfold to_text. destruct O as [O|O].
    + cbn [sem]. cbn [In] in O. destruct O as [O|[O|[O|[O|[]]]]]; rewrite <- O; cbn [find fst String.eqb Ascii.eqb Bool.eqb templates fill arg nth_error bind].
      * eexists. exists (ECall "Add" [e; e']). split; [reflexivity|]. split; [apply (G "Add"); is_plain|]. intros A env. destruct (M A env) as (x & M1 & M2). destruct (M' A env) as (y & M1' & M2'). eexists. cbn. rewrite M1, M1', M2, M2'. split; reflexivity.
      * eexists. exists (ECall "Add" [e; ECall "Mul" [e'; ENeg (EName "1")]]). split; [reflexivity|]. split; [apply (G2 "Add" "Mul"); is_plain|]. intros A env. destruct (M A env) as (x & M1 & M2). destruct (M' A env) as (y & M1' & M2'). eexists. cbn. rewrite M1, M1', M2, M2'. split; [reflexivity|]. rewrite sub_law. reflexivity.
      * eexists. exists (ECall "Mul" [e; e']). split; [reflexivity|]. split; [apply (G "Mul"); is_plain|]. intros A env. destruct (M A env) as (x & M1 & M2). destruct (M' A env) as (y & M1' & M2'). eexists. cbn. rewrite M1, M1', M2, M2'. split; reflexivity.
      * eexists. exists (ECall "Mul" [e; ECall "Pow" [e'; ENeg (EName "1")]]). split; [reflexivity|]. split; [apply (G2 "Mul" "Pow"); is_plain|]. intros A env. destruct (M A env) as (x & M1 & M2). destruct (M' A env) as (y & M1' & M2'). eexists. cbn. rewrite M1, M1', M2, M2'. split; [reflexivity|]. change (Some (times A x (inv A y)) = Some (times A x (inv A (times A y (one A))))). rewrite div_law. reflexivity.
    + cbn [In] in O. destruct O as [<-|[<-|[]]]; cbn -[mean sem].
      * eexists. exists (ECall "Add" [e; e']). split; [reflexivity|]. split; [match goal with |- RD ?t _ => replace t with ("Add" ^^ "(" ^^ s ^^ ", " ^^ s' ^^ ")") by (cbn; f_equal; f_equal; f_equal; f_equal; norm_text) end; apply (G "Add"); is_plain|]. intros A env. destruct (M A env) as (x & M1 & M2). destruct (M' A env) as (y & M1' & M2'). eexists. cbn. rewrite M1, M1', M2, M2'. split; reflexivity.
      * eexists. exists (ECall "Mul" [e; e']). split; [reflexivity|]. split; [match goal with |- RD ?t _ => replace t with ("Mul" ^^ "(" ^^ s ^^ ", " ^^ s' ^^ ")") by (cbn; f_equal; f_equal; f_equal; f_equal; norm_text) end; apply (G "Mul"); is_plain|]. intros A env. destruct (M A env) as (x & M1 & M2). destruct (M' A env) as (y & M1' & M2'). eexists. cbn. rewrite M1, M1', M2, M2'. split; reflexivity.
  - assert (E : to_sympy (Nd v [a]) = to_text v [s]) by (cbn [to_sympy emap]; rewrite Q; reflexivity). rewrite E. clear E.
    assert (G1 : forall f, plain f -> RD (f ^^ "(" ^^ s ^^ ")") (ECall f [e])) by (intros f Pf; apply RU_RD, U_call1; assumption).
    assert (GP : forall d, plain d -> RD ("Pow(" ^^ s ^^ ", " ^^ d ^^ ")") (ECall "Pow" [e; EName d])).
    { intros d Pd. replace ("Pow(" ^^ s ^^ ", " ^^ d ^^ ")") with ("Pow" ^^ "(" ^^ commas [s; d] ^^ ")") by norm_text. apply D_call; [is_plain| |discriminate]. repeat constructor; [exact R|apply RU_RD, U_name; exact Pd]. }
    unfold to_text. destruct O as [O| ->].
    + cbn [sem]. cbn [In] in O. repeat destruct O as [O|O]; try contradiction; rewrite <- O; cbn [find fst String.eqb Ascii.eqb Bool.eqb templates fill arg nth_error bind existsb orb].
      all: try (eexists; eexists; split; [reflexivity|]; split;
                [first [apply (G1 "laplacian"); is_plain | apply (GP "2"); is_plain | apply (GP "3"); is_plain | apply (GP "4"); is_plain | apply (GP "5"); is_plain | apply (G1 "sin"); is_plain | apply (G1 "cos"); is_plain | apply (G1 "tan"); is_plain
                       | apply (G1 "exp"); is_plain | apply (G1 "log"); is_plain | apply (G1 "sqrt"); is_plain | apply (G1 "abs"); is_plain] |];
                intros A env; destruct (M A env) as (x & M1 & M2); eexists; cbn; rewrite M1, M2; split; reflexivity).
      * eexists. eexists. split; [reflexivity|]. split; [rewrite app_nil_s in *; apply D_sigmoid; exact R|]. intros A env. destruct (M A env) as (x & M1 & M2). exists (inv A (plus A (one A) (func A "exp" (opp A x)))). split; [cbn -[atom]; rewrite M1; cbn -[atom]; rewrite atom_one, one_times; reflexivity|cbn; rewrite M2; reflexivity].
      * eexists. exists (ECall "exp" [ENeg e]). split; [reflexivity|]. split.
        { replace ("exp(-(" ^^ s ^^ "))" ^^ "") with ("exp" ^^ "(" ^^ ("-(" ^^ s ^^ ")") ^^ ")") by norm_text. apply RU_RD, U_call1; [is_plain|]. apply RU_RD, U_neg, R. }
        intros A env. destruct (M A env) as (x & M1 & M2). eexists. cbn. rewrite M1, M2. split; reflexivity.
      * eexists. exists (ECall "log" [ECall "Abs" [e]]). split; [reflexivity|]. split.
        { replace ("log(Abs(" ^^ s ^^ "))" ^^ "") with ("log" ^^ "(" ^^ ("Abs" ^^ "(" ^^ s ^^ ")") ^^ ")") by norm_text. apply RU_RD, U_call1; [is_plain|]. apply (G1 "Abs"). is_plain. }
        intros A env. destruct (M A env) as (x & M1 & M2). eexists. cbn. rewrite M1, M2. split; reflexivity.
    + eexists. exists (ECall "tanh" [e]). split; [reflexivity|]. split; [apply (G1 "tanh"); is_plain|]. intros A env. destruct (M A env) as (x & M1 & M2). eexists. cbn. rewrite M1, M2. split; reflexivity.
  - assert (E : to_sympy (Nd v [a; Nd x []]) = to_text v [s; x]) by (cbn [to_sympy emap]; rewrite Q; reflexivity). rewrite E. clear E.
    assert (G : forall k, RD ("Derivative" ^^ "(" ^^ commas (s :: repeat x (S k)) ^^ ")") (ECall "Derivative" (e :: repeat (EName x) (S k)))).
    { intros k. apply D_call; [is_plain| |discriminate]. constructor; [exact R|]. induction (S k) as [|j IH]; cbn [repeat]; constructor; auto. apply RU_RD, U_name; exact Px. }
    unfold to_text. cbn [sem]. cbn [In] in O.
    repeat destruct O as [O|O]; try contradiction; rewrite <- O; cbn [find fst String.eqb Ascii.eqb Bool.eqb templates fill arg nth_error bind];
    (eexists; eexists; split; [reflexivity|]; split;
     [first [match goal with |- RD ?t _ => replace t with ("Derivative" ^^ "(" ^^ commas (s :: repeat x 1) ^^ ")") by (cbn [repeat]; norm_text); exact (G 0) end
            |match goal with |- RD ?t _ => replace t with ("Derivative" ^^ "(" ^^ commas (s :: repeat x 2) ^^ ")") by (cbn [repeat]; norm_text); exact (G 1) end
            |match goal with |- RD ?t _ => replace t with ("Derivative" ^^ "(" ^^ commas (s :: repeat x 3) ^^ ")") by (cbn [repeat]; norm_text); exact (G 2) end
            |match goal with |- RD ?t _ => replace t with ("Derivative" ^^ "(" ^^ commas (s :: repeat x 4) ^^ ")") by (cbn [repeat]; norm_text); exact (G 3) end] |];
     intros A env; destruct (M A env) as (y & M1 & M2); eexists; cbn; rewrite M1, M2; split; reflexivity).
Qed.

(** "Every operator" is false: negation and the reciprocal become calls SymPy does not know. *)
Theorem C114_neg_inv_refuted v : In v ["neg"; "inv"] -> exists s e, to_sympy (Nd v [Nd "u1" []]) = Ok s /\ reads s e /\ forall A env, mean A env e = None /\ sem A env (Nd v [Nd "u1" []]) <> None.
Proof.
  intros [<-|[<-|[]]].
  - exists "neg(u1)", (ECall "neg" [EName "u1"]). split; [reflexivity|]. split; [exists 10; vm_compute; reflexivity|]. intros A env. split; [reflexivity|discriminate].
  - exists "inv(u1)", (ECall "inv" [EName "u1"]). split; [reflexivity|]. split; [exists 10; vm_compute; reflexivity|]. intros A env. split; [reflexivity|discriminate].
Qed.
(** A node with too few children raises IndexError. *)
Theorem C114_missing_child v a : In v ["add"; "sub"; "mul"; "div"; "diff"; "diff2"; "Diff"] -> term a -> to_sympy (Nd v [a]) = Err IndexError.
Proof.
  intros I Ta. destruct (C114_text_means_term a Ta) as (s & _ & Q & _). cbn [In] in I. repeat destruct I as [<-|I]; try contradiction; cbn [to_sympy emap]; rewrite Q; reflexivity.
Qed.
Example C114_case : let n := Nd "sub_t" [Nd "diff2" [Nd "n2" [Nd "u1" []]; Nd "x1" []]; Nd "sigmoid" [Nd "mul" [Nd "u1" []; Nd "x1" []]]] in
  term n /\ to_sympy n = Ok "Add(Derivative(Pow(u1, 2), x1, x1), Mul(1 / (1 + exp(-(Mul(u1, x1)))), -1))".
Proof.
  cbv zeta. split; [|reflexivity]. apply t_bin; [left; vm_compute; tauto|apply t_der; [vm_compute; tauto| |is_plain]|].
  - apply t_un; [left; vm_compute; tauto|apply t_leaf; is_plain].
  - apply t_un; [left; vm_compute; tauto|]. apply t_bin; [left; vm_compute; tauto| |]; apply t_leaf; is_plain.
Qed.

(** ** C115 *)
(** the number a shown term stands for *)
Definition shown_value (t : shown_term) : Q := ((match t_sign t with Minus => -1 | _ => 1 end) * (match t_mag t with Some z => inject_Z z / 10000 | None => 1 end))%Q.
Lemma round_close q : (Qabs (inject_Z (round_half_even q) - q) <= 1 # 2)%Q.
Proof.
  unfold round_half_even. pose proof (Qfloor_le q) as L. pose proof (Qlt_floor q) as U. rewrite inject_Z_plus in U. change (inject_Z 1) with 1%Q in U.
  apply Qabs_Qle_condition. destruct (Qcompare (q - inject_Z (Qfloor q)) (1 # 2)) eqn:E.
  - apply Qeq_alt in E. destruct (Z.even (Qfloor q)); rewrite ?inject_Z_plus; change (inject_Z 1) with 1%Q; split; lra.
  - apply Qlt_alt in E. split; lra.
  - apply Qgt_alt in E. rewrite inject_Z_plus. change (inject_Z 1) with 1%Q. split; lra.
Qed.
Lemma qleb a b : Qle_bool a b = true <-> (a <= b)%Q. Proof. apply Qle_bool_iff. Qed.
Lemma qleb_f a b : Qle_bool a b = false -> (b < a)%Q.
Proof. intros E. destruct (Qlt_le_dec b a) as [H|H]; [exact H|]. apply qleb in H. congruence. Qed.
Lemma term_value c base first : (Qabs (shown_value (format_term c base first) - c) <= 1 # 20000)%Q.
Proof.
  assert (B : (0 <= Qabs c)%Q) by apply Qabs_nonneg. assert (Sg : (0 <= c /\ Qabs c == c)%Q \/ (c < 0 /\ Qabs c == - c)%Q) by (destruct (Qlt_le_dec c 0) as [H|H]; [right; split; [exact H|rewrite Qabs_neg; [reflexivity|lra]]|left; split; [exact H|apply Qabs_pos; exact H]]).
  unfold shown_value, format_term, close0, close1, Qtol. cbn [t_sign t_mag]. pose proof (round_close (Qabs c * 10000)) as R. fold (fmt4 (Qabs c)) in R. apply Qabs_Qle_condition in R.
  assert (Y : exists y, (inject_Z (fmt4 (Qabs c)) / 10000 == y /\ y * 10000 == inject_Z (fmt4 (Qabs c)))%Q) by (eexists; split; [reflexivity|field]). destruct Y as (y & Y1 & Y2). apply Qabs_Qle_condition.
  destruct (Qle_bool (Qabs c) (1 # 100000000)) eqn:Z0.
  - apply qleb in Z0. cbn [negb andb]. assert (C1 : Qle_bool (Qabs (Qabs c - 1)) ((1 # 100000000) + (1 # 100000)) = false).
    { destruct (Qle_bool _ _) eqn:X; [|reflexivity]. apply qleb in X. apply Qabs_Qle_condition in X. lra. }
    rewrite C1. cbn [andb]. destruct first; (setoid_replace (1 * (inject_Z 0 / 10000) - c)%Q with (- c)%Q by (cbn; field)); destruct Sg as [[P E]|[P E]]; split; lra.
  - apply qleb_f in Z0. cbn [negb andb]. assert (Neg : negb (Qle_bool 0 c) = true -> (c < 0)%Q) by (intros H; apply negb_true_iff in H; apply qleb_f in H; exact H). assert (Pos : negb (Qle_bool 0 c) = false -> (0 <= c)%Q) by (intros H; apply negb_false_iff in H; apply qleb in H; exact H).
    destruct (negb (Qle_bool 0 c)) eqn:Ng.
    + specialize (Neg eq_refl). destruct (Qle_bool (Qabs (Qabs c - 1)) _ && negb (base =? "1")%string) eqn:C1.
      * apply andb_true_iff in C1 as [C1 _]. apply qleb in C1. apply Qabs_Qle_condition in C1. destruct Sg as [[P E]|[P E]]; [lra|]. split; lra.
      * destruct Sg as [[P E]|[P E]]; [lra|]. split; lra.
    + specialize (Pos eq_refl). destruct Sg as [[P E]|[P E]]; [|lra]. destruct (Qle_bool (Qabs (Qabs c - 1)) _ && negb (base =? "1")%string) eqn:C1.
      * apply andb_true_iff in C1 as [C1 _]. apply qleb in C1. apply Qabs_Qle_condition in C1. destruct first; split; lra.
      * destruct first; split; lra.
Qed.
Lemma mapM_nth {A B} (f : A -> res B) l m : mapM f l = Ok m -> List.length m = List.length l /\ forall k a, nth_error l k = Some a -> exists b, nth_error m k = Some b /\ f a = Ok b.
Proof.
  revert m. induction l as [|a l IH]; intros m; cbn [mapM]; [intros [= <-]; split; [reflexivity|intros [|k] a H; discriminate]|].
  destruct (f a) as [b|] eqn:E; cbn [bind]; [|discriminate]. destruct (mapM f l) as [m'|] eqn:E'; cbn [bind]; [|discriminate]. intros [= <-]. destruct (IH m' eq_refl) as [L H]. split; [cbn; congruence|].
  intros [|k] a' Ha; cbn in Ha; [injection Ha as <-; exists b; split; [reflexivity|exact E]|]. exact (H k a' Ha).
Qed.
Lemma nth_combine {A B} (l : list A) : forall (m : list B) k a b, nth_error l k = Some a -> nth_error m k = Some b -> nth_error (combine l m) k = Some (a, b).
Proof. induction l as [|x l IH]; intros [|y m] [|k] a b; cbn; try discriminate; [intros [= <-] [= <-]; reflexivity|apply IH]. Qed.
Lemma nth_seq n k : k < n -> nth_error (seq 0 n) k = Some k.
Proof. intros H. rewrite (nth_error_nth' _ 0) by (rewrite seq_length; exact H). rewrite seq_nth by exact H. reflexivity. Qed.
(** An equation is returned only for a known notation; it has one shown term per term of the program, in order, each with the LaTeX of its term, and a
    coefficient within 0.00005 of the fitted coefficient times the factor split off; the first term has no plus sign. *)
Theorem C115_equation render plain_ notation ax expand w terms lhs l : program_to_latex render plain_ notation ax expand (Some (w, terms)) = Ok (lhs, Sum l) ->
  In notation ["subscript"; "leibniz"] /\ lhs = match ax with Some a => "u_{" ^^ a ^^ "}" | None => "u_t" end /\ List.length w = List.length terms /\ List.length l = List.length terms /\
  forall k c n, nth_error w k = Some c -> nth_error terms k = Some n -> exists t factor text, nth_error l k = Some t /\ (if expand then render n = Ok (factor, text) else factor = 1%Q /\ text = plain_ n) /\
    t_base t = (if String.eqb text "1" then None else Some text) /\ (Qabs (shown_value t - c * factor) <= 1 # 20000)%Q /\ (k = 0 -> t_sign t <> Plus) /\ (0 < k -> t_sign t <> NoSign).
Proof.
  unfold program_to_latex. destruct (existsb _ _) eqn:EN; cbn [negb]; [|discriminate]. destruct (List.length w =? List.length terms) eqn:L; cbn [negb]; [|discriminate]. apply Nat.eqb_eq in L.
  destruct terms as [|n0 terms0] eqn:ET; [discriminate|]. rewrite <- ET in *. destruct (mapM _ _) as [m|] eqn:EM; cbn [bind]; [|discriminate]. intros [= <- <-].
  split; [apply existsb_exists in EN as (x & I & E); apply String.eqb_eq in E; subst x; exact I|]. split; [reflexivity|]. split; [exact L|]. apply mapM_nth in EM as [LM H]. rewrite !combine_length, seq_length, L in LM. split; [rewrite LM; lia|].
  intros k c n Hc Hn. assert (K : k < List.length w) by (apply nth_error_Some; congruence). destruct (H k (k, (c, n))) as (t & Ht & F); [apply nth_combine; [apply nth_seq; exact K|apply nth_combine; assumption]|].
  assert (X : exists factor text, (if expand then render n else Ok (1%Q, plain_ n)) = Ok (factor, text) /\ t = format_term (c * factor) text (k =? 0)).
  { destruct (if expand then render n else Ok (1%Q, plain_ n)) as [[f tx]|]; [|discriminate]. cbn [bind fst snd] in F. injection F as <-. exists f, tx. split; reflexivity. }
  destruct X as (f & tx & X1 & ->). exists (format_term (c * f) tx (k =? 0)), f, tx. split; [exact Ht|]. split; [destruct expand; [exact X1|injection X1 as <- <-; split; reflexivity]|]. split; [reflexivity|]. split; [apply term_value|].
  unfold format_term. cbn [t_sign]. split; [intros ->|intros K0; replace (k =? 0) with false by (symmetry; apply Nat.eqb_neq; lia)]; destruct (negb _ && negb _); discriminate.
Qed.
(** An unknown notation is a ValueError, whatever the program; with a known one and without expansion nothing raises. *)
Theorem C115_notation render plain_ notation ax expand p : (~ In notation ["subscript"; "leibniz"] -> program_to_latex render plain_ notation ax expand p = Err ValueError) /\
  (In notation ["subscript"; "leibniz"] -> expand = false \/ (forall n, exists r, render n = Ok r) -> exists r, program_to_latex render plain_ notation ax expand p = Ok r).
Proof.
  assert (N : existsb (String.eqb notation) ["subscript"; "leibniz"] = true <-> In notation ["subscript"; "leibniz"]).
  { rewrite existsb_exists. split; [intros (x & I & E); apply String.eqb_eq in E; congruence|intros I; exists notation; split; [exact I|apply String.eqb_refl]]. }
  split.
  - intros H. unfold program_to_latex. destruct (existsb (String.eqb notation) ["subscript"; "leibniz"]) eqn:E; [exfalso; apply H, N; reflexivity|reflexivity].
  - intros I HR. unfold program_to_latex. rewrite (proj2 N I). cbn [negb]. destruct p as [[w terms]|]; [|eexists; reflexivity]. destruct (negb _); [eexists; reflexivity|]. destruct terms as [|n0 r]; [eexists; reflexivity|].
    assert (HR' : forall n, exists r, (if expand then render n else Ok (1%Q, plain_ n)) = Ok r) by (intros n; destruct expand; [destruct HR as [HR|HR]; [discriminate|apply HR]|eexists; reflexivity]).
    match goal with |- context [mapM ?f ?l] => assert (T : exists m, mapM f l = Ok m) end.
    { generalize (combine (seq 0 (List.length w)) (combine w (n0 :: r))). induction l as [|[i [c n]] l [m IH]]; [exists []; reflexivity|]. cbn [mapM]. destruct (HR' n) as [q Q]. rewrite Q, IH. eexists. reflexivity. }
    destruct T as [m ->]. eexists. reflexivity.
Qed.
(** A missing program, or other numbers of coefficients than terms, is reported in the equation; no terms give u_t = 0. *)
Theorem C115_invalid render plain_ notation ax expand p lhs : program_to_latex render plain_ notation ax expand p = Ok (lhs, InvalidProgram) <-> In notation ["subscript"; "leibniz"] /\
  lhs = match ax with Some a => "u_{" ^^ a ^^ "}" | None => "u_t" end /\ (p = None \/ exists w terms, p = Some (w, terms) /\ List.length w <> List.length terms).
Proof.
  assert (N : existsb (String.eqb notation) ["subscript"; "leibniz"] = true <-> In notation ["subscript"; "leibniz"]).
  { rewrite existsb_exists. split; [intros (x & I & E); apply String.eqb_eq in E; congruence|intros I; exists notation; split; [exact I|apply String.eqb_refl]]. }
  unfold program_to_latex. destruct (existsb (String.eqb notation) ["subscript"; "leibniz"]) eqn:E; cbn [negb]; [|split; [discriminate|]; intros (I & _); apply N in I; discriminate].
  destruct p as [[w terms]|].
  - destruct (List.length w =? List.length terms) eqn:L; cbn [negb].
    + apply Nat.eqb_eq in L. split; [destruct terms; [discriminate|]; destruct (mapM _ _); discriminate|]. intros (_ & _ & [H|(w' & t' & H & D)]); [discriminate|]. injection H as <- <-. congruence.
    + apply Nat.eqb_neq in L. split; [intros [= <-]; split; [apply N; reflexivity|]; split; [reflexivity|]; right; exists w, terms; split; [reflexivity|exact L]|]. intros (_ & -> & _). reflexivity.
  - split; [intros [= <-]; split; [apply N; reflexivity|]; split; [reflexivity|left; reflexivity]|]. intros (_ & -> & _). reflexivity.
Qed.
(** "Every fitted equation is shown" is false: a program fitted with a constant has one coefficient more than terms (C112 accepts it). *)
Theorem C115_constant_refuted render plain_ terms w c : List.length w = List.length terms -> program_to_latex render plain_ "subscript" None true (Some (w ++ [c], terms)) = Ok ("u_t", InvalidProgram).
Proof. intros L. unfold program_to_latex. cbn [existsb String.eqb Ascii.eqb Bool.eqb orb negb]. rewrite app_length, L. cbn [List.length]. replace (_ =? _) with false by (symmetry; apply Nat.eqb_neq; lia). reflexivity. Qed.
Example C115_case : program_to_latex (fun n => match n with Nd v _ => Ok (2%Q, v) end) (fun _ => "") "leibniz" (Some "y") true (Some ([-(1#4); 1#2; 0]%Q, [Nd "a" []; Nd "b" []; Nd "1" []])) =
  Ok ("u_{y}", Sum [mkTerm Minus (Some 5000%Z) (Some "a"); mkTerm Plus None (Some "b"); mkTerm Plus (Some 0%Z) None]).
Proof. vm_compute. reflexivity. Qed.

Print Assumptions C114_one_reading.
Print Assumptions C114_text_means_term.
Print Assumptions C114_neg_inv_refuted.
Print Assumptions C114_missing_child.
Print Assumptions C115_equation.
Print Assumptions C115_notation.
Print Assumptions C115_invalid.
Print Assumptions C115_constant_refuted.
