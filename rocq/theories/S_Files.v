(** Specification: the text files that represent a collection, in any layout. *)
From Verif Require Import Base S_Trie M_Auto M_Input S_Text S_Collection.

(** One record of .mapped: the doc id, the token ids, a 0. *)
Definition record_numbers (r : N * list N) : list N := fst r :: snd r ++ [0%N].
Definition valid_record (r : N * list N) : Prop := (fst r < 2 ^ 32)%N /\ Forall (fun x => 0 < x < 2 ^ 32)%N (snd r).
(** A list in .inverted and .forward: its length, its elements. *)
Definition counted (l : list N) : list N := N.of_nat (length l) :: l.

(** The five files hold the collection [c]. .mapped.stats: numbers of terms, of characters of the longest completion, of completions, bound on the doc ids,
    number of levels of the trie, number of nodes of each level. *)
Record holds_collection (c : collection) (t : texts) : Prop := {
  hc_stats : exists len nodes, (len <= 128)%N /\ length nodes = num_levels (comps c) /\ Forall (fun x => (x < 2 ^ 32)%N) nodes /\
    numbers (N.of_nat (length (terms c)) :: len :: N.of_nat (length (comps c)) :: N.of_nat (universe c) :: N.of_nat (num_levels (comps c)) :: nodes) (t_stats t);
  hc_dict : layout (terms c) (t_dict t);
  hc_mapped : numbers (concat (map record_numbers (combine (map N.of_nat (docs c)) (comps c)))) (t_mapped t);
  hc_inverted : numbers (concat (map (fun x => counted (map N.of_nat (posting_list c x))) (seq 1 (length (terms c))))) (t_inverted t);
  hc_forward : numbers (concat (map (fun d => counted (forward_list c d)) (seq 0 (universe c)))) (t_forward t)
}.
