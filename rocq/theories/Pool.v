(** The PCL subscriber: its pool of cloud objects and its message callback.  Models
    cloudini_ros/src/cloudini_subscriber_pcl.cpp ("SP") and the members declared in
    cloudini_ros/include/cloudini_ros/cloudini_subscriber_pcl.hpp:96-113.
    An object is an address; [ps_mem] is its content.  What runs under pool_mutex_ (SP 59, 75-92, and
    the deleter SP 80-91) is one step: the critical sections of different threads come in some
    order, and a history is that order.  Copies of a shared_ptr are not told apart: [Drop] is the
    destruction of the last one.  Parameters: the allocator's choice of an address and what a
    failed decode left in the cloud are part of the event.
    Not modelled: rclcpp, logging, allocation failure. *)
From Verif Require Import Base Types Floats V5 Api Header Ros Pcl.

Record pool_state := mkPS {
  ps_alive : bool;              (* the subscriber exists *)
  ps_pool : list Z;             (* cloud_pool_, its back first *)
  ps_live : list Z;             (* addresses allocated and not yet deleted *)
  ps_owned : list Z;            (* addresses held by shared_ptrs *)
  ps_mem : Z -> pcl_cloud }.
Definition MAX_POOL_SIZE : nat := 4.                                      (* hpp:113 *)
Definition new_cloud : pcl_cloud := mkPC [] 0 0 [] false 0 0 [] false.    (* pcl::PCLPointCloud2() *)
Definition set_mem (m : Z -> pcl_cloud) (a : Z) (c : pcl_cloud) : Z -> pcl_cloud := fun x => if x =? a then c else m x.
Definition remove_one (a : Z) (l : list Z) : list Z := filter (fun x => negb (x =? a)) l.
Definition has (a : Z) (l : list Z) : bool := existsb (Z.eqb a) l.
Definition initial : pool_state := mkPS true [] [] [] (fun _ => new_cloud).

(** operator delete: undefined on an address that is not allocated *)
Definition delete (a : Z) (s : pool_state) : res pool_state :=
  if has a (ps_live s) then Ok (mkPS (ps_alive s) (ps_pool s) (remove_one a (ps_live s)) (ps_owned s) (ps_mem s)) else UB.
(** SP 70-92 acquireCloudFromPool; [a]: the address new would return *)
Definition acquire (a : Z) (s : pool_state) : res (Z * pool_state) :=
  match ps_pool s with
  | p :: pool => Ok (p, mkPS (ps_alive s) pool (ps_live s) (p :: ps_owned s) (ps_mem s))
  | [] => Ok (a, mkPS (ps_alive s) [] (a :: ps_live s) (a :: ps_owned s) (set_mem (ps_mem s) a new_cloud))
  end.
(** SP 80-91, the deleter: it uses the members of the subscriber *)
Definition release (p : Z) (s : pool_state) : res pool_state :=
  if negb (ps_alive s) then UB
  else if (length (ps_pool s) <? MAX_POOL_SIZE)%nat then
    if has p (ps_live s) then
      let c := ps_mem s p in
      Ok (mkPS true (p :: ps_pool s) (ps_live s) (remove_one p (ps_owned s))
            (set_mem (ps_mem s) p (mkPC (pc_header c) (pc_height c) (pc_width c) [] (pc_big c) (pc_step c) (pc_row c) [] (pc_dense c))))
    else UB
  else delete p (mkPS true (ps_pool s) (ps_live s) (remove_one p (ps_owned s)) (ps_mem s)).
(** SP 57-64, the destructor *)
Fixpoint delete_all (l : list Z) (s : pool_state) : res pool_state :=
  match l with [] => Ok s | a :: l' => do s <- delete a s ; delete_all l' s end.
Definition destroy (s : pool_state) : res pool_state :=
  do s <- delete_all (ps_pool s) s ; Ok (mkPS false [] (ps_live s) (ps_owned s) (ps_mem s)).

Section Subscriber.
  Variables (ft : float_text) (ops : float_ops) (L : libs) (ppc : nat).
  Inductive event :=
  | Message (msg : list Z) (a : Z) (junk : pcl_cloud)   (* a message arrives *)
  | Use (p : Z) (c : pcl_cloud)                         (* a holder of the cloud at p stores c in it *)
  | Drop (p : Z)                                        (* the last shared_ptr to p goes *)
  | Destroy.                                            (* ~CloudiniSubscriberPCL *)
  (** SP 94-117 messageCallback; the calls of the user's callback (address, cloud) are returned *)
  Definition step (s : pool_state) (e : event) : res (pool_state * list (Z * pcl_cloud)) :=
    match e with
    | Message msg a junk =>
        match getDeserializedPointCloudMessage msg with
        | Throw => Ok (s, [])
        | UB => UB
        | Ok pc =>
            do '(p, s) <- acquire a s ;
            if negb (has p (ps_live s)) then UB
            else
              match PCLPointCloudDecode ft ops L ppc (r_data pc) (ps_mem s p) with
              | Ok c => Ok (mkPS (ps_alive s) (ps_pool s) (ps_live s) (ps_owned s) (set_mem (ps_mem s) p c), [(p, c)])
              | Throw => do s <- release p (mkPS (ps_alive s) (ps_pool s) (ps_live s) (ps_owned s) (set_mem (ps_mem s) p junk)) ; Ok (s, [])
              | UB => UB
              end
        end
    | Use p c => if has p (ps_live s) then Ok (mkPS (ps_alive s) (ps_pool s) (ps_live s) (ps_owned s) (set_mem (ps_mem s) p c), []) else UB
    | Drop p => do s <- release p s ; Ok (s, [])
    | Destroy => do s <- destroy s ; Ok (s, [])
    end.
  (** Which events can happen: messages and the destruction while the subscriber exists, uses and
      drops of held clouds; the allocator returns an address that is not in use. *)
  Definition possible (s : pool_state) (e : event) : Prop :=
    match e with
    | Message _ a _ => ps_alive s = true /\ ~ In a (ps_live s)
    | Use p _ | Drop p => In p (ps_owned s)
    | Destroy => ps_alive s = true
    end.
  (** A history from state to state, with the calls of the user's callback *)
  Inductive history : pool_state -> list event -> res (pool_state * list (Z * pcl_cloud)) -> Prop :=
  | h_nil s : history s [] (Ok (s, []))
  | h_stop s e es : possible s e -> step s e = UB -> history s (e :: es) UB
  | h_cons s e es s1 out r : possible s e -> step s e = Ok (s1, out) -> history s1 es r ->
      history s (e :: es) (match r with Ok (s2, out2) => Ok (s2, out ++ out2) | Throw => Throw | UB => UB end).
End Subscriber.
