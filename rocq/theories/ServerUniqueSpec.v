(** uniquecount with the real Count: what is assumed of the run and of the query. *)
From Verif Require Import Base Float64 FnvSpec HllModel HllSpec HllCountModel HllCountSpec CollationModel CollationSpec BufmapModel BufmapSpec QueryModel QuerySpec ServerModel ServerSpec ServerHomeSpec.
Local Open Scope Z_scope.

(** [est] is (hll.Counter).Count with math.Log = glog *)
Definition is_Count (glog : float → float) (est : Counter → Z) : Prop := ∀ c p, hll_wf c p → Count_returns glog c (est c).

Section setting.
Context (pf : bytes → option float) (est : Counter → Z) (ff : float → bytes) (et : error → bytes) (pm : bytes → option bytes) (order : list FM → list FM).
(** Over the requests [rqs], the rows [rows] were posted and accepted; [mine] are
    those with key=v; [rq] asks for uniquecount(f) of them; the record lies
    undisturbed in a home slot that can be read (C33, C91), nothing else hashes to its
    key, and the first of its rows has exactly one f (C29) *)
Record unique_asked (c : list (Z * Schema)) (rqs : list request) (sts : list Store) (l : Z) (s : Schema) (rq : request) (key v f : bytes) (p : Z) (mine : list Row) : Prop := {
  ua_cfg : cfg_ok c;
  ua_requests : Forall request_ok rqs;
  ua_run : ∃ sts0 rs rows, initial c sts0 ∧ serve_all pf est ff et pm order sts0 rqs = (sts, rs) ∧ posted pm rqs rs rows ∧
    no_collision [key] [MkFV key v] rows ∧ undisturbed l s (fnv1_spec (key ++ v)) rows ∧
    mine = filter (λ r, value_of key (row_data r) = Some v) rows;
  ua_installed : installed c l s;
  ua_name : plain_name (s_name s);
  ua_keys : s_keys s = [key];
  ua_order : map_order order;
  ua_words : key_ok key ∧ value_ok v ∧ ¬ has_where (crit_item (key, v)) ∧ name_ok f;
  ua_measure : field_measure s f (MCardinality p) ∧ ∀ p', field_measure s f (MCardinality p') → p' = p;
  ua_query : coll_query rq (s_name s) (str "select uniquecount(" ++ f ++ str ") where " ++ key ++ str "='" ++ v ++ str "'");
  ua_key : is_key (fnv1_spec (key ++ v));
  ua_readable : home_readable l (c_size (Compile s)) (c_size (Compile s)) (fnv1_spec (key ++ v));
  ua_first : ∃ r0 rest, mine = r0 :: rest ∧ has_once f r0 }.
(** the answer n to that query *)
Definition unique_answer (key v f : bytes) (n : Z) : response :=
  Resp 200 (key ++ str "=" ++ v ++ [10] ++ str "uniquecount(" ++ f ++ str ")=" ++ ff (f_of_Z n) ++ [10]).
End setting.
