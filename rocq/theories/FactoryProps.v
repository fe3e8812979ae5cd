(** C13: memory handed out by the factories. *)
From Verif Require Import Prelude Arr FactoryModel FactorySpec FactoryExec FactoryProofs.
Open Scope Z_scope.

(** Items of 1 to 512 bytes: over every history of axl_factory_get and
    axl_factory_release_spare, the items the client still holds lie inside
    allocated blocks and are pairwise disjoint.  Missing: larger item types, see
    the refutation. *)
Theorem C13_item_factory_partial :
  forall (ts : Z) (ops : list fop), 1 <= ts <= 512 ->
    exists f0 f held, factory_create ts = Ok f0 /\ fexec f0 [] ops = Ok (f, held) /\
      safe (blocks f) (map (fun p => (fst p, snd p, ts)) held).
Proof. exact C13_items_lemma. Qed.
Print Assumptions C13_item_factory_partial.

Example C13_item_case :
  match factory_create 100 with
  | Ok f0 => match fexec f0 [] [FGet; FGet; FGet; FRelease 1; FGet; FGet; FRelease 0; FRelease 0; FGet] with
             | Ok (f, held) => held = [(0%nat, 100); (1%nat, 0); (0%nat, 0)]
                               /\ blocks f = [200; 500]
             | _ => False end
  | _ => False
  end.
Proof. vm_compute. auto. Qed.

(** item types of more than 512 bytes get blocks of size 0 *)
Theorem C13_large_items_refuted :
  exists ts ops f0 f held, factory_create ts = Ok f0 /\ fexec f0 [] ops = Ok (f, held) /\
    ~ safe (blocks f) (map (fun p => (fst p, snd p, ts)) held).
Proof.
  exists 600, [FGet]. do 3 eexists. split; [vm_compute; reflexivity|]. split; [vm_compute; reflexivity|].
  intros [H _]. apply Forall_inv in H. destruct H as (s & E & H1 & H2).
  simpl in E. inversion E; subst. simpl in H2. lia.
Qed.
Print Assumptions C13_large_items_refuted.

(** String factory: for every sequence of requests, each one gets its size plus the
    terminator, inside allocated memory, disjoint from all others. *)
Theorem C13_string_factory :
  forall (sizes : list Z), Forall (fun n => 0 <= n) sizes ->
    exists f held, sexec sfactory_create [] sizes = Ok (f, held) /\ safe (s_blocks f) held /\
      map (fun r : region => snd r) held = rev (map (fun n => n + 1) sizes).
Proof. exact C13_strings_lemma. Qed.
Print Assumptions C13_string_factory.

Example C13_string_case :
  match sexec sfactory_create [] [1000; 23; 0; 1025; 5000; 3; 1024] with
  | Ok (f, held) => s_blocks f = [1024; 1025; 1026; 5001; 1025; 1025] /\
                    held = [(5%nat, 0, 1025); (4%nat, 0, 4); (3%nat, 0, 5001); (2%nat, 0, 1026);
                            (1%nat, 24, 1); (1%nat, 0, 24); (0%nat, 0, 1001)]
  | _ => False
  end.
Proof. vm_compute. auto. Qed.
