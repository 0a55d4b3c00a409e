# Formal model of xecs in Rocq/Coq — design

`/repo/src` is modelled function by function as total, computable Gallina
functions over std++ `list`/`gmap`/`nat` (files `rocq/theories/Model*.v`).
Every definition cites the file and lines it models. The properties
(`properties.jsonl`, C01…) are theorems about this model in the files
`Prop*.v`; `MANIFEST.json` maps properties to theorems.

## 1. How the code is modelled

A `&mut self` method becomes a function returning the new value. Four outcomes
are explicit: `Ret a`, `Panic`, `UB` (out-of-bounds `get_unchecked`, a wrong
downcast) and `Block` (waiting for a lock this thread holds itself). The state
after a panic is kept (every call has type `outcome A * world`), because code
can catch unwinding.

| file | what | code |
|---|---|---|
| `Base.v` | outcomes, Vec indexing, swap, swap_remove | std |
| `Api.v` | names only: query expressions, calls, answers (no behaviour) | public API |
| `ModelSparse.v` | SparseSet and its ComponentStorage impl | `sparse_set.rs`, `component.rs:29-54` |
| `ModelEntity.v` | EntityManager | `entity.rs:195-298` |
| `ModelGroup.v` | Group, add/remove/make of the three kinds | `group/**/mod.rs` |
| `ModelWorld.v` | World, Entity, Entities, guards, resources | `world.rs`, `entity.rs`, `component.rs`, `resource.rs` |
| `ModelQuery.v` | every Queryable and its iterator (`next`, `next_with_id`, `from_id`, `size_hint`), opening a query | `query/*.rs`, `group/*/query.rs` |
| `ModelStep.v` | one API call on a world (`step`), a history of calls (`after ops`, `answer ops o`), an iterator driven by hand (`use`) | all |
| `ModelConc.v` | every call as a program of lock operations and pieces of work; threads; schedules (`run`) | all, plus `parking_lot::RwLock` |
| `ModelLife.v` | a world's whole life: users enter and move, exclusive calls are made when nobody is in | ownership: `&World` / `&mut World` |
| `ModelForget.v` | guards that are leaked (`mem::forget`) | guards in `component.rs`, `resource.rs`, `entity.rs` |
| `ModelBreak.v` | calls broken off by a panicking `Drop`; half of a removal | `world.rs:111-150`, unwinding |
| `ModelOverflow.v` | `allocate_n` on 64-bit words, release and debug | `entity.rs:246-264` |

Specification, independent of the model:

| file | what |
|---|---|
| `Spec.v` | an abstract world (ids handed out, stack of removed ids, map type → entity → value, groups with members, resources), the effect `anext` and answer `aout` of each call, the rules of use `legal` / `rules` |
| `History.v` | what a user can say by looking at the list of calls alone (`value_of`, `handed`, `waiting`, `alive`, `types_of`, `groups_of`, `in_group`, …), with no state at all |
| `SpecConc.v` | vocabulary for threads (`reaches`, `guard_of`, `wants`, `finished`, `deadlocked`, …) |
| `SpecLife.v`, `SpecBreak.v` | what is asked of the actions of a life and what they are meant to do; the same with calls broken off |
| `SpecApart.v` | a discipline by which threads divide the entities of a shared world among themselves (`minds`) |
| `Rules.v`, `Samples.v`, `Checks.v` | decision procedures by which the concrete cases are shown to meet the hypotheses |

Proofs: `ProofSparse/Entity/Group/World/Ops/Ops2/Remove/Remove2` (each call
preserves the invariant and matches `anext`/`aout`), `ProofQuery*`
(iterators), `ProofMain` (the refinement over histories), `ProofHistory*`
(from the abstract world to `History.v`), `ProofWf` (invariant for *all*
histories, rules or not), `ProofTerm` (loops), `ProofConc*` (a weakest
precondition calculus for programs of lock operations, lock protection, order,
termination), `ProofLin*`/`ProofEm` (linearizability), `ProofSeq*` (one thread
alone = the plain call), `ProofApart*` (group invariants while calls of several
threads are half done, for clients that keep to `SpecApart.v`).

## 2. Trusted base

* Coq 8.16.1: the kernel, including its virtual machine (`vm_compute` is used
  for concrete witnesses and cases).
* **Axioms: none.** `Assumptions.v` (generated by `tools/assumptions.py`) runs
  `Print Assumptions` on each theorem of the manifest; each prints
  `Closed under the global context`. The only axioms in loaded libraries are
  the seven of `Coq.ssr.ssrunder.Under_rel` (`Under_rel`, `Over_rel`,
  `over_rel`, `over_rel_done`, `under_rel_done`, `Under_rel_from_rel`,
  `Under_relE`), part of the standard library's ssreflect files, which std++
  loads; no theorem here depends on them.
* std++ 's definitions of `gmap`, `gset`, list functions where a statement
  mentions them.
* That the model is what the code does: the reading recorded in the comments.
  `C45_bound_harmless` shows that the fuel in the modelled loops is not
  visible; `C49` shows that the two models of a call (the function in
  `ModelStep.v`, the lock program in `ModelConc.v`) agree.

### Modelled

Everything in `world.rs` (except `Debug`), `entity.rs`, `component.rs`,
`resource.rs` (except `Debug`/`Display`), `sparse_set.rs`, `group/**`,
`query/**`. `Entity::component_read/_write` are `entity_component_read/_write`
of the handle's id; `Entity::manaully_drop` is dropping the handle followed by
`remove_entity`: in the thread model these are two steps of the client, as in
the code. `unsafe` public functions (`StorageRead::get_unchecked`) are
reachable through `ComponentRead::deref` only.

### Not modelled

* `system/mod.rs` is a trait without code; what it is for (worlds shared and used
  exclusively by turns) is `ModelLife.v`. Tests, `Debug`, `Display` are not modelled.
* User implementations of the public traits `Queryable`, `ComponentStorage`; of
  `Into<Group>` (`make_group` is modelled for the crate's own group types).
* Values: all component types share one universe `V`; the Rust type of a
  storage is a tag, and a downcast to another tag is `UB`. Dropping a value has
  no effect, but for C58 (`ModelBreak.v`): there it may panic. (A re-entrant `Drop`
  that calls the world it is in is outside; the crate clones no value.)
* Memory: allocation never fails; `Vec` reallocation is not modelled as
  addresses — C41 talks of *places* (storage, position) instead.
* `usize` is `nat` except in `ModelOverflow.v` (C42).
* `mem::forget` of guards, but for C57: a forgotten guard is one kept by a thread
  that is never scheduled again, or (`ModelForget.v`) one of a list of guards that
  stay alive for the rest of the life of a world, exclusive use included.
* Threads: sequentially consistent interleaving at every lock operation and
  every piece of work between two lock operations. A piece of work touches only
  data whose lock is held (`C36_protected`, `C36_no_race`), so this loses no
  behaviour. Two variants of the lock are considered: granted whenever
  compatible (all theorems), and additionally `parking_lot`'s rule that readers
  wait behind a waiting writer (`PropFair.v`).
* `HashMap` iteration order in `remove_entity` is an argument of the call;
  C17 shows that it does not matter.

## 3. Rules of use

Many natural claims are false of the code for some histories. The rules of use
(`legal` in `Spec.v`) are the weakest we found under which the crate behaves as
a user expects; each has a theorem showing what happens without it.

| rule | without it |
|---|---|
| ids are ≥ 1; the range of a batch attach was handed out | no rules: `NonZeroUsize`; `Entities` come from `create_entities` only |
| `remove_entity(e)`: `e` is not the removed id that has waited longest | `C15_remove_dead_refuted` |
| `remove_entity(e)`: `e` is not in two groups of which the earlier owns a type of the later | `C31_order_refuted` |
| batch attach: no entity of the range has the type yet | `C07_batch_twice_refuted`; `C07_batch_exact` says what happens |
| `make_group`: registered, distinct types (or a refusal) | `C34_failed_refuted` |
| queries: non-owning groups in them undisturbed since they were made | `C30_non_owning_refuted`, `C25_stale_refuted` |
| attach/detach to the longest-waiting removed id: allowed by the rules, but | `C18_new_entity_bare_refuted`, `C48_refused_refuted` |
| `data_mut()[i] = v` | excluded from `rules`; `C03_dense` says whose component it is |

Theorems that need no rules (hold for all histories of calls whatsoever):
C33 (its first two parts), C45, C36–C39, C41, C49. The theorems about threads
that name a history `ops` with `rules ops` (C40, C43, C44, C46, C50) need the rules for
the history before the threads start; what the threads may do is said by
`calm_client` (SpecConc.v) or `minds` (SpecApart.v).

## 4. Plan per property

* **C01 C02 C03 C05 C06 C16 C17 C20 C26 C35** — refinement of `Spec.v` by the
  world model, by induction over histories, then from `Spec.v` to `History.v`:
  the statements speak of the list of calls only. C35 also: what calls answer
  does not depend on the resources (`C35_unseen`).
* **C08–C12** — the entity manager refines (live set, LIFO stack, counter).
* **C04 C07 C13 C14 C15 C18 C30 C31 C32 C34 C48** — false in general. Each has a
  `_refuted` theorem (a reachable witness) and the strongest true statement:
  exact characterisation or `_partial` with the hypothesis that is missing.
  C30: for disturbed groups, which entities are seen is still right
  (`C30_right_entities`), their data is not.
  C31: `PropGroup2.v` proves the failure universally — every removal of an
  entity in two groups of which the first owns a type of the second leaves the
  second's size as it was (`C31_bad_order`: the second group is not told, as
  the type is gone by then). C32: no batch attach changes what an owning group
  answers (`C32_batch_exact`), a later single attach does (`C32_attach_heals`).
* **C19 C33** — UB is an outcome of the model; proved unreachable.
* **C21–C25, C28, C29** — iterators are objects; every query's iterator yields
  exactly the denotation `q_get`/`q_visits` of the expression. "The join" in
  C28/C29 means the join over the entities the group was told of: entities
  given their components by batch attach after the group was made are left out
  (`left_out` in `History.v`; C32 is the property that says this is wrong, and
  refutes it). C22–C25 are false of the code where such entities or stale
  non-owning groups (C30) come in: `PropQuery2.v` has the witnesses
  (`C22_left_out_refuted`, `C23_left_out_refuted`, `C24_left_out_refuted`,
  `C25_stale_refuted`: two `&mut` to one component in one iteration) and says
  exactly what queries do with left-out entities (`C22_join_exact`,
  `C23_without_exact`, `C24_exact`, `C25_written_exact`: the iteration visits
  what `from_id` answers for minus what the driving group left out). That
  `next` is `next_with_id` without the id is proved of every history and query
  without any rule (`C24_next_is_next_with_id`).
* **C27** — ownership table over histories.
* **C36–C39, C41** — a weakest-precondition calculus: invariants of
  configurations under every schedule, for any clients. C36: mutual exclusion,
  no data race, lock protection. C37: while a handle exists the entity table is
  constant (`C37_entities_kept`) — *only* the table: `remove_entity` strips the
  components before it waits for the handle (`C37_case`). `SpecKeep.v` says
  which objects (handles, guards, iterators) a thread keeps at every moment of a
  run; `PropKeep.v` says C36 and C37 of these objects: a thread has exactly the
  guards of its objects plus those of the call it is in; the entity of every
  `Entity` handle kept exists (`C37_handle_alive`; for an `Entities` handle this
  fails, since `create_entities` unlocks the table in between: C43); reads
  through kept guards and iterators are repeatable while only others move
  (`PropKeep2.v`). C38: deadlock
  freedom for threads taking storages in an order compatible with the groups;
  four deadlocks otherwise; for any threads, a deadlock is a ring of threads
  waiting for each other (`PropCycle.v`). C39: storages stay well formed for clients without
  group queries and double batch attach; for threads that divide the entities
  (C40 below) there is also no undefined behaviour in queries of owning groups
  and in iterators kept over them (`C39_apart_partial`: a calculus that tracks
  the world each program last looked at, `ProofSafe*.v`); without the discipline
  there is (`C39_group_race_refuted`).
* **C40 C43 C44 C50** — races between the critical sections of one call. C40: two
  witnesses; C43: two; C44: one. The positive theorems are for threads that
  divide the entities among themselves (`minds`, `SpecApart.v`): each has
  entities of its own (given to it at the start, or created by it, until it
  removes them); it detaches grouped types from, and removes, only these;
  attaching goes to its own or to common entities that nobody removes; batches
  to own entities that it got from `create_entities` and knows to have neither
  the type nor one grouped with it. Then
  groups are right at every moment up to the calls in progress
  (`C40_apart_partial`), creation and removal always work and own sets stay
  disjoint (`C43_own_partial`, `C44_own_partial`), and each thread's answers are
  what its own calls make them (`C50_own_answers`, `C50_own_end`; values if
  `still`, presence of components otherwise). Proof: ghost state per thread (its
  entities, their components, which groups it has still to tell), preserved by
  every labelled piece of work (`WI_step`), and a protocol (`proto`) that each
  call's program is shown to follow (`ProofApart*.v`). C43 also for clients
  that do not remove anything (from C46).
* **C42** — `N` with wrap-around mod 2^64.
* **C45** — loops: one pass of every modelled loop decreases a measure.
* **C46** — every schedule of calm calls (no `remove_entity`, no attach or detach of
  grouped types) equals a sequential history (commutation of pieces of work).
* **C47** — a refused call leaves the world exactly as it was.
* **C49** — a call run by one thread while nobody interferes gives the answer
  and world of the plain call; ties `ModelConc.v` to `ModelStep.v`.
* **C51** — conservation of values. For every history: each operation on the three
  vectors permutes, extends or shrinks the data as a multiset (`holds`
  framework, no invariant needed). Exactly, under the rules: an induction over the
  abstract world with the finite maps as multisets of values.
* **C52** — threads and values. A weakest-precondition predicate `acc` on the
  lock-by-lock programs carries the values a thread has in hand; every act on the
  world satisfies "stored + hand never grows"; induction over clients, then over the
  schedule. No invariant of the world is needed, so races, panics and worlds in any
  state are covered. A second form follows the answers the threads got (`follow`).

* **C53** — the list of entities of a storage as a fold over the calls and their answers
  (`order_of`, SpecOrder.v); each call's effect on the entity vector, groups not
  naming the type leave it alone (`PropOrder.v`).
* **C54** — the life of a world (`ModelLife.v`, `SpecLife.v`, `PropLife.v`): a list of
  actions, each a thread borrowing the world, a step of a thread, or an exclusive
  call (`&mut World`) made when all threads are done. This is what the `System`
  trait's `Arc<RwLock<World>>` (lib.rs:66-79, system/mod.rs:7-11) or scoped threads
  allow; the outer lock itself is simplified to what it guarantees. `C54_phases`
  reduces a life to runs of `ModelConc.v` that start where the last exclusive call
  left the world; the invariant (well formed storages, the thread invariant of the
  current phase) is kept by each action, and the theorems on single phases apply.
* **C55** — ids over a life: the creations and removals in the order in which they
  took effect (`deeds`) are a sequential history whose entity manager is the
  world's at every moment, so C08-C15 carry over (`PropLife2.v`).
* **C56** — per id: (times handed to the threads counted) + (alive before) <= (times
  removed) + (alive now). The sequential account of the history `deeds` is an exact
  equation; what threads are told is a sub-multiset of what was allocated in their
  steps (`PropIds.v`).
* **C57** — forgotten guards: a run in which some threads stopped for good is
  compared with the same run without their guards (`rid`): step by step the same,
  or the next thread waits for one of these guards (`PropForget.v`). Lives with
  forgotten guards (`ModelForget.v`: exclusive calls lock by lock, among the
  forgotten guards) are compared with lives (C54) in which the guards are dropped
  (`PropForgetLife.v`): simulation both ways; a walk over each exclusive call
  (`safe`, reusing the walk of the shared calls) for what stays as it is.
* **C58** — calls broken off by a panicking `Drop` (`ModelBreak.v`): one more action
  of a life, `Break`: a user's program is replaced, at any moment, by one that drops
  its guards and goes on as any client; between the two removals of a full-owning
  group also half of a piece of work. The invariant of C54 is kept by it (guards are
  dropped by a program within the calculus; `half_kill` keeps storages well formed).
  Group queries: refuted. `PropBreak.v`. Values and ids: `PropBreak2.v` (hands as in
  C54, half a removal only takes away; the step of C55's induction, for any actions). `PropBreak3.v`: a user alone — the program is
  walked piece by piece (`walk`): removal broken off = some detaches; calls on one storage: all or nothing.
* **C46/C43 `_any_history`** (`PropLin2.v`) — the same from every world that
  sequential histories reach, rules of use kept or not.
* **Without the rules of use** (`PropLoose.v`, `PropLooseEnt.v`; C01-C04, C08-C15,
  C18, C21-C26, C33 `_any_history`) — `loose` histories may break every rule of
  section 3 except C07's and undefined queries; panics are survived. For the
  components: an invariant on the storages alone (well formed three vectors),
  preserved by every call however it ends, and the effect of each call on each
  component (`effect_on`, SpecLoose.v). For plain queries: each such world has the
  same component tables as one reached by a history keeping the rules, and plain
  queries look at nothing else. For the ids (`tidy`): the entity manager is changed
  by create and remove alone, so a history with only these calls shadows it.

Nothing is "not applicable".

## 5. Testing the theorems

`seeded/` holds edits of the model like realistic bugs (`mutants*.py`) and how
they were judged; see `seeded/README.md`. For the sequential model each
property's statement is also written as a boolean `claims.v.txt` and evaluated on
the edited model over a pool of histories: a statement counts as failing only if it
is *false* of the edited program, not merely because a proof script breaks. A
mutant that no claim rejects is either equivalent (argued in the log) or led to a
stronger theorem (C30_size_hint, C30_not_in_group, C30_right_entities, C47, C48).
For threads and overflow the development is rebuilt on the edited model.
