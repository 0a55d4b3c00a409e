{"id": "C01", "title": "Component reads return the last value attached or written", "statement": "For every component type T and entity e, component_read::<T>() / entity_component_read::<T>(e) returns Some(v) exactly when e currently has a T, and v is the value given by the most recent attach (single or batch) or write to (e,T) not followed by a detach or by the removal of e; otherwise it returns None.", "quantifier": "all finite histories of World calls that satisfy the (explicitly listed) usage rules, all types, all entities, all values", "why_tests_cant": "The claim ranges over unbounded histories interleaving attach, detach, removal, batch attach and group creation, each of which permutes the dense arrays; a test fixes one history.", "anchors": ["src/sparse_set.rs: add, remove, get, swap_by_index", "src/world.rs: attach_component, detach_component, entity_component_read", "src/entity.rs: Entity::attach, Entity::detach"]}
{"id": "C02", "title": "Frame: an operation on one entity/type changes no other entity's or type's components", "statement": "attach, detach, write, remove_entity, batch attach, create and make_group leave every (entity,type) pair they do not name exactly as it was: still present or absent, with the same value.", "quantifier": "all reachable worlds, all operations, all (entity,type) pairs not named by the operation", "why_tests_cant": "swap-remove and group swaps move data of unrelated entities; absence of corruption must hold for every layout.", "anchors": ["src/sparse_set.rs: remove, swap_by_index", "src/world.rs: remove_entity, make_group", "src/group/*/mod.rs: add, remove, make"]}
{"id": "C03", "title": "Storages are dense and aligned", "statement": "components_read::<T>() exposes count() = data().len() = number of entities having T; data() contains each such entity's component exactly once and nothing else.", "quantifier": "all reachable worlds, all registered types", "why_tests_cant": "Must hold after every history; a leaked or duplicated slot shows only for particular removal orders.", "anchors": ["src/sparse_set.rs: len, data, add, remove, add_batch", "src/component.rs: StorageRead::count, data"]}
{"id": "C04", "title": "Detach returns the component and is total", "statement": "detach_component::<T>(e) on an existing entity returns Some(v) with the current value if e has T (and e no longer has it), and returns None, changing nothing, if e does not have T.", "quantifier": "all reachable worlds, all live entities, all registered types", "why_tests_cant": "The boundary in the presence check depends on the relation between the id and the largest id ever attached; a test hits it only by luck. (The code violates it: see theorem C04_..._refuted.)", "anchors": ["src/sparse_set.rs: remove (line 70)", "src/world.rs: detach_component", "src/entity.rs: Entity::detach"]}
{"id": "C05", "title": "Attaching to an entity that already has the component overwrites in place", "statement": "attach::<T>(e,v) when e already has a T replaces its value; count(), the set of owners and the iteration order of T are unchanged; when e has no T the new component is appended (in the absence of groups on T it becomes the last item of data()).", "quantifier": "all reachable worlds, all e, T, v", "why_tests_cant": "Ranges over all layouts and all positions of e in the storage.", "anchors": ["src/sparse_set.rs: add", "src/entity.rs: Entity::attach"]}
{"id": "C06", "title": "Batch attach equals attaching one by one", "statement": "create_entities(n).attach(v) with n values gives exactly the same storage (owners, values and iteration order) as attaching v[i] to the i-th id one at a time; it panics, changing nothing, if the number of values differs from n or T is not registered.", "quantifier": "all n, all value vectors, all prior storages, all fresh id ranges", "why_tests_cant": "Unbounded n and arbitrary prior storage.", "anchors": ["src/sparse_set.rs: add_batch", "src/entity.rs: Entities::attach"]}
{"id": "C07", "title": "Batch attach twice is an overwrite", "statement": "create_entities(n).attach(v).attach(w) with v,w of the same type leaves each entity with its component from w, once - as single attach does.", "quantifier": "all n, all value vectors", "why_tests_cant": "Stated for all n and values. (The code violates it: the storage then holds two slots per entity.)", "anchors": ["src/sparse_set.rs: add_batch (lines 48-66)", "src/entity.rs: Entities::attach"]}
{"id": "C08", "title": "A newly created entity is fresh", "statement": "create_entity() returns a non-zero id that is not the id of any entity alive at that moment, after the call that id exists, and every other entity is as alive as before.", "quantifier": "all histories of create_entity, create_entities and removal of live entities", "why_tests_cant": "Uniqueness must hold for every interleaving of creation and removal, over an unbounded free list threaded through one array.", "anchors": ["src/entity.rs: EntityManager::allocate, remove, has", "src/world.rs: create_entity"]}
{"id": "C09", "title": "Ids are recycled last-removed-first, and fresh ids only appear when no removed id is waiting", "statement": "create_entity() returns the most recently removed id that has not been handed out again; if there is none it returns one more than the number of distinct ids ever handed out.", "quantifier": "all histories of create_entity, create_entities and removal of live entities", "why_tests_cant": "A statement about the whole removal history.", "anchors": ["src/entity.rs: EntityManager::allocate, remove", "README.md: ID recycling"]}
{"id": "C10", "title": "create_entities(n) returns n consecutive brand-new ids", "statement": "create_entities(n) returns the range [k, k+n) where k-1 is the number of distinct ids ever handed out; all n ids exist afterwards; none was ever handed out before; removed ids waiting for reuse stay waiting, in the same order.", "quantifier": "all n, all prior histories", "why_tests_cant": "Unbounded n and arbitrary free list.", "anchors": ["src/entity.rs: EntityManager::allocate_n", "src/world.rs: create_entities"]}
{"id": "C11", "title": "The id space is not leaked", "statement": "In a history using create_entity and remove_entity only, the largest id ever handed out equals the largest number of entities that were alive at the same time.", "quantifier": "all histories of create_entity and removal of live entities", "why_tests_cant": "Relates a maximum over the whole history to a maximum over the whole history.", "anchors": ["src/entity.rs: EntityManager::allocate, remove"]}
{"id": "C12", "title": "exist and entity are true of live entities", "statement": "exist(e) is true, and entity(e) is Some, for every entity created and not removed since.", "quantifier": "all histories with removals of live entities only", "why_tests_cant": "For every history and every live entity.", "anchors": ["src/entity.rs: EntityManager::has", "src/world.rs: exist, entity"]}
{"id": "C13", "title": "exist and entity are false of removed entities", "statement": "exist(e) is false, and entity(e) is None, for every removed id that has not been handed out again.", "quantifier": "all histories with removals of live entities only, all removed ids", "why_tests_cant": "Depends on the position of the id in the free chain. (The code violates it for the oldest waiting id.)", "anchors": ["src/entity.rs: EntityManager::has, remove (line 276)", "src/world.rs: exist, entity"]}
{"id": "C14", "title": "exist answers for every id", "statement": "exist(e) and entity(e) return (false / None for ids never handed out); they never panic.", "quantifier": "all reachable worlds, all ids", "why_tests_cant": "All ids, including arbitrarily large ones. (The code violates it: index out of bounds.)", "anchors": ["src/entity.rs: EntityManager::has (line 282)", "src/world.rs: exist, entity"]}
{"id": "C15", "title": "Removing an entity twice is rejected", "statement": "remove_entity(e) of an id that is not alive panics and changes nothing.", "quantifier": "all reachable worlds, all ids that are not alive", "why_tests_cant": "Holds or fails depending on the removal history. (The code violates it for the oldest waiting id: it evicts another live entity and can later hand out one id twice.)", "anchors": ["src/world.rs: remove_entity", "src/entity.rs: EntityManager::has, remove"]}
{"id": "C16", "title": "remove_entity removes the entity and all its components and nothing else", "statement": "After remove_entity(e) of a live entity: e has no component of any type; every other live entity is still alive with exactly its components; the call does not panic.", "quantifier": "all reachable worlds, all live entities, every HashMap iteration order, every group configuration in which no group borrows a type owned by an earlier-created group", "why_tests_cant": "Ranges over all worlds, group sets and the unspecified iteration order of the storage table.", "anchors": ["src/world.rs: remove_entity"]}
{"id": "C17", "title": "The result of remove_entity does not depend on HashMap iteration order", "statement": "Whatever order the component table is enumerated in, remove_entity(e) produces the same world.", "quantifier": "all reachable worlds, all live entities, all pairs of enumeration orders", "why_tests_cant": "HashMap order is randomised per process; no test enumerates all orders.", "anchors": ["src/world.rs: remove_entity (lines 141-153)"]}
{"id": "C18", "title": "A newly created entity has no components", "statement": "Right after create_entity() or create_entities(n) the returned entities have no component of any type, even when ids are recycled.", "quantifier": "all histories in which components are attached only to live entities", "why_tests_cant": "Recycling exposes any component left behind by any earlier removal. (Without the rule it is violated: attach_component accepts the oldest removed id.)", "anchors": ["src/world.rs: create_entity, remove_entity", "src/entity.rs: EntityManager"]}
{"id": "C19", "title": "A world never confuses component types", "statement": "Every access to the storage of T made through the API reaches the storage created by register::<T>(): the unchecked downcasts are always to the true type.", "quantifier": "all histories, all operations and queries", "why_tests_cant": "The downcast is unchecked, so a violation is silent; must hold for every history.", "anchors": ["src/component.rs: downcast_ref, downcast_mut", "src/world.rs: register, components_read", "src/query/mod.rs"]}
{"id": "C20", "title": "Registration", "statement": "register::<T>() of an unregistered type makes has_registered::<T>() true with an empty storage and changes nothing else; of a registered type it panics and changes nothing; nothing ever unregisters a type.", "quantifier": "all histories, all types", "why_tests_cant": "Permanence is a statement over all continuations.", "anchors": ["src/world.rs: register, has_registered"]}
{"id": "C21", "title": "Query of &T / &mut T visits every T exactly once", "statement": "query::<&T>() and query::<&mut T>() yield each component of type T exactly once; with_id pairs each with its own entity; size_hint/len is exact at every point of the iteration; after the end they keep returning None.", "quantifier": "all reachable worlds, all registered types, every prefix of the iteration, any values written through yielded &mut items meanwhile", "why_tests_cant": "All worlds and all iteration prefixes.", "anchors": ["src/query/mod.rs: IterRef, IterMut, IdIter"]}
{"id": "C22", "title": "Tuple queries are exactly the join", "statement": "query of a tuple (2 to 5 components, arbitrarily nested) yields an item for exactly those entities for which every component query has one, once each, with that entity's own values; it never blocks when no type occurs mutably twice.", "quantifier": "all reachable worlds, all query expressions", "why_tests_cant": "Ranges over all nested query expressions and all worlds.", "anchors": ["src/query/with.rs: WithIter, WithIter3, WithIter4, WithIter5"]}
{"id": "C23", "title": "Without queries are exactly the anti-join", "statement": "(A,Without<B>) and (Without<B>,A) yield exactly the entities matching A and not matching B, once each.", "quantifier": "all reachable worlds, all query expressions A and B", "why_tests_cant": "As for joins.", "anchors": ["src/query/without.rs"]}
{"id": "C24", "title": "from_id, next and next_with_id agree", "statement": "In every query, from_id(e) is Some(item) exactly when the iteration visits e, with the same item; next() yields the same items in the same order as with_id() without the ids, and the two can be mixed.", "quantifier": "all query expressions, all reachable worlds, all ids, all iteration states", "why_tests_cant": "All expressions and states.", "anchors": ["src/query/mod.rs: QueryIterator", "src/query/with.rs", "src/query/without.rs", "src/group/*/query.rs"]}
{"id": "C25", "title": "Mutable items of one query do not alias", "statement": "During one iteration no two yielded items give access to the same component mutably, nor one mutably and one shared; hence writing through one item is seen by exactly one later read.", "quantifier": "all query expressions that can be opened, all reachable worlds", "why_tests_cant": "Aliasing is undefined behaviour and invisible to tests.", "anchors": ["src/query/mod.rs: IterMut", "src/query/with.rs"]}
{"id": "C26", "title": "make_group changes no component", "statement": "make_group (of any kind) changes no entity's components and no liveness; it only reorders.", "quantifier": "all reachable worlds, all group kinds and type pairs", "why_tests_cant": "Reordering loop over arbitrary storages.", "anchors": ["src/group/*/mod.rs: make", "src/world.rs: make_group"]}
{"id": "C27", "title": "A storage is owned by at most one group", "statement": "make_group panics if an identical group exists or if it would own a type already owned; hence at every time each type is owned by at most one group.", "quantifier": "all histories", "why_tests_cant": "Invariant over histories.", "anchors": ["src/world.rs: make_group, has_group", "src/group/mod.rs: owned, owning"]}
{"id": "C28", "title": "Full-owning group queries are exactly the join", "statement": "query::<FullOwning<&A,&B>>() (and the &mut forms) yields each entity having both A and B exactly once with its own A and B, and no other.", "quantifier": "all histories of single-entity operations (with group creation orders as in C16), all four mutability forms", "why_tests_cant": "The group is maintained incrementally by every attach/detach/removal; must hold after every history.", "anchors": ["src/group/full_owning/mod.rs", "src/group/full_owning/query.rs"]}
{"id": "C29", "title": "Partial-owning group queries are exactly the join", "statement": "query::<PartialOwning<&A,&B>>() yields each entity having both A and B exactly once with its own A and B; it never panics.", "quantifier": "all histories of single-entity operations (group creation orders as in C16), all four mutability forms", "why_tests_cant": "As above.", "anchors": ["src/group/partial_owning/mod.rs", "src/group/partial_owning/query.rs"]}
{"id": "C30", "title": "Non-owning group queries are exactly the join", "statement": "query::<NonOwning<&A,&B>>() yields each entity having both A and B exactly once with its own A and B.", "quantifier": "all histories, all four mutability forms", "why_tests_cant": "As above. (The code violates it: cached positions go stale, giving other entities' data or out-of-bounds reads.)", "anchors": ["src/group/non_owning/mod.rs", "src/group/non_owning/query.rs"]}
{"id": "C31", "title": "Group creation order does not matter", "statement": "remove_entity keeps every group consistent whatever the order in which groups were created.", "quantifier": "all group configurations accepted by make_group, all histories", "why_tests_cant": "Order-dependent. (The code violates it for a group borrowing a type owned by an earlier group.)", "anchors": ["src/world.rs: remove_entity (lines 115-139)"]}
{"id": "C32", "title": "Groups see batch-attached entities", "statement": "Entities created with create_entities and batch attach appear in existing groups' queries as individually attached ones do.", "quantifier": "all histories with batch attach after make_group", "why_tests_cant": "History-dependent. (The code violates it: batch attach never updates groups. Soundness of the groups is nevertheless preserved, which is proved.)", "anchors": ["src/entity.rs: Entities::attach (lines 161-184)"]}
{"id": "C33", "title": "No unchecked access is ever out of bounds", "statement": "No sequence of API calls reaches an unchecked out-of-bounds read (get_unchecked) or a wrong downcast.", "quantifier": "all histories, all queries (excluding iteration of non-owning groups, where it fails)", "why_tests_cant": "Undefined behaviour need not be observable in a test.", "anchors": ["src/sparse_set.rs: get_unchecked", "src/query/mod.rs", "src/group/*/query.rs", "src/component.rs: ComponentRead::deref"]}
{"id": "C34", "title": "A failed make_group leaves the world unchanged", "statement": "If make_group panics, the world is as before the call.", "quantifier": "all reachable worlds, all group requests", "why_tests_cant": "Includes the state after unwinding. (The code violates it when a type is not registered: the broken group stays and every later remove_entity panics.)", "anchors": ["src/world.rs: make_group (lines 281-302)"]}
{"id": "C35", "title": "Resources behave as a typed map", "statement": "resource_read::<R>() returns None if R was never registered and otherwise the value last registered or written; operations on one resource do not affect others, components or entities.", "quantifier": "all histories, all resource types", "why_tests_cant": "All histories.", "anchors": ["src/world.rs: register_resource, resource_read, resource_write", "src/resource.rs"]}
{"id": "C36", "title": "Guards exclude conflicting access", "statement": "In every interleaving of any number of threads, while a guard (StorageWrite, ComponentWrite, &mut query, ResourceWrite) is alive no other guard on the same storage/resource is, and shared guards coexist only with shared guards.", "quantifier": "all schedules, any number of threads, all guard programs", "why_tests_cant": "Quantifies over schedules.", "anchors": ["src/world.rs", "src/component.rs: StorageRead, StorageWrite", "src/resource.rs"]}
{"id": "C37", "title": "An entity cannot be removed while a handle to it is alive", "statement": "While an Entity or Entities handle is alive in any thread, no id is removed from or added to the world; remove_entity and create_entity by others wait, and by the same thread never return.", "quantifier": "all schedules, any number of threads", "why_tests_cant": "Quantifies over schedules.", "anchors": ["src/entity.rs: Entity, Entities (borrow_entity_manager)", "src/world.rs: remove_entity, create_entity"]}
{"id": "C38", "title": "Concurrent use does not deadlock", "statement": "Threads that each hold at most one query/guard at a time never deadlock.", "quantifier": "all schedules, any number of threads, all mixtures of calls", "why_tests_cant": "Quantifies over schedules. (The code violates it: group queries lock storages then the group, attach/detach/remove lock the group then storages; tuple queries lock in tuple order.) A lock order under which it holds is proved.", "anchors": ["src/group/*/query.rs: query", "src/entity.rs: attach, detach", "src/query/with.rs: query"]}
{"id": "C39", "title": "Storages stay well formed under every interleaving", "statement": "Whatever the interleaving of attach, detach, write and group maintenance by any number of threads, each storage stays dense and consistent, so reads and plain queries are never out of bounds and never return another entity's data.", "quantifier": "all schedules, any number of threads, any per-thread programs", "why_tests_cant": "Quantifies over schedules.", "anchors": ["src/entity.rs: attach, detach", "src/sparse_set.rs"]}
{"id": "C40", "title": "Groups stay consistent under every interleaving", "statement": "Under every interleaving of operations by several threads, owning groups stay exact once the threads are done. (False in general; true for threads that divide the entities among themselves: grouped types are attached to one's own or common entities, detached from one's own only, and one removes only one's own.)", "quantifier": "all schedules, any number of threads", "why_tests_cant": "Quantifies over schedules. (Violated when a detach races with an attach.)", "anchors": ["src/entity.rs: attach (lines 43-74), detach (lines 86-116)"]}
{"id": "C41", "title": "Items obtained from a query stay valid while they are usable", "statement": "A reference yielded by a query refers to the component of its entity as long as the borrow checker lets it be used.", "quantifier": "all client programs accepted by the signatures", "why_tests_cant": "Needs reasoning about every continuation. (The code violates it: items have the lifetime of the world borrow, not of the guard.)", "anchors": ["src/query/mod.rs: Queryable::query, IterRef, IterMut (type Item = &'a T)"]}
{"id": "C42", "title": "create_entities is exact for every count", "statement": "create_entities(n) returns a range of exactly n non-zero ids, or fails, for every n : usize.", "quantifier": "all n below 2^64 and all prior worlds", "why_tests_cant": "Boundary of machine arithmetic; allocation sizes put it out of reach of tests. (Violated in release builds: wrapping addition yields a reversed range.)", "anchors": ["src/entity.rs: EntityManager::allocate_n (lines 246-264)"]}
{"id": "C43", "title": "create_entity works whatever other threads do", "statement": "create_entity called while other threads create and remove entities returns a handle to an id no other entity has, and does not panic. (False in general; true if no thread removes entities, and if threads remove only entities of their own.)", "quantifier": "all schedules, any number of threads, all mixtures of creations and removals", "why_tests_cant": "Quantifies over schedules. (The code violates it: the manager is unlocked between allocating the id and building the handle; another thread may remove the id there, so create_entity panics, or remove and recycle it, so two threads get the same id.)", "anchors": ["src/world.rs: create_entity (lines 70-82)"]}
{"id": "C44", "title": "An entity is removed at most once", "statement": "When several threads call remove_entity for the same entity, one of them removes it and the free list stays a list of distinct ids, so later entities get distinct ids. (False in general; true if threads remove only entities of their own.)", "quantifier": "all schedules, any number of threads", "why_tests_cant": "Quantifies over schedules. (The code violates it: exist is checked, the lock released, and the id removed later without checking again.)", "anchors": ["src/world.rs: remove_entity (lines 132-166)", "src/entity.rs: EntityManager::remove"]}
{"id": "C45", "title": "Every call comes to an end", "statement": "No call loops forever: a call that is not waiting for a lock ends after finitely many steps, for every world, every query and every iterator state.", "quantifier": "all worlds, all calls, all queries, all schedules", "why_tests_cant": "Quantifies over all worlds and iterator states; iterators contain `loop`s.", "anchors": ["src/query/with.rs: next, next_with_id", "src/query/without.rs", "src/group/*/query.rs"]}
{"id": "C46", "title": "Concurrent calls are as if made one after the other", "statement": "Whatever the schedule, calls made concurrently (creations, existence tests, reads, writes, attach and detach of ungrouped types, plain queries, resource accesses) have the effects and answers they would have in some sequential order of the same calls that respects each thread's order and real time.", "quantifier": "all schedules, any number of threads, all calls each thread may make depending on previous answers, all prior histories", "why_tests_cant": "Quantifies over schedules.", "anchors": ["src/world.rs", "src/entity.rs", "src/query/*.rs"]}
{"id": "C47", "title": "A refused call changes nothing", "statement": "A call made within the rules of use that panics (unregistered type, unknown or removed entity, wrong number of components, existing or conflicting group, missing group in a query) leaves the world exactly as it was: everything done afterwards goes as if the refused call had not been made.", "quantifier": "all histories, all calls, all later calls", "why_tests_cant": "Quantifies over all histories before and after the refused call.", "anchors": ["src/world.rs: register, remove_entity, make_group, attach_component, detach_component", "src/entity.rs: attach, detach", "src/query/*.rs"]}
{"id": "C48", "title": "attach and detach only work on living entities and registered types", "statement": "attach_component and detach_component with an id that is not that of a living entity, or with a type that is not registered, are refused (panic, nothing changed); with a living entity and a registered type they are carried out.", "quantifier": "all histories, all ids, types and values", "why_tests_cant": "Quantifies over all histories and all ids.", "anchors": ["src/world.rs: attach_component, detach_component, exist", "src/entity.rs: attach, detach"]}
{"id": "C49", "title": "A call nobody interferes with is the plain call", "statement": "A call (or a handle method) made by a thread while no other thread has a guard, and during which no other thread moves, has exactly the answer and the effect of the same call in a single-threaded program, releases every lock it took (also when it panics), and, if the single-threaded call would wait for itself, waits for ever.", "quantifier": "all worlds, all numbers of threads, all calls, all groups and queries", "why_tests_cant": "Quantifies over all worlds and all calls.", "anchors": ["src/world.rs", "src/entity.rs", "src/query/*.rs", "src/group/*/query.rs"]}
{"id": "C50", "title": "Threads with entities of their own do not disturb each other", "statement": "If several threads share a world and divide the entities among themselves (each detaches grouped types from and removes only its own entities, given at the start or created by it), then every answer a thread gets about its own entities is what its own calls make it: the entities exist, reads give what it attached or wrote last, detach returns it, new entities have no components, and attach succeeds; and so it stays when it has finished.", "quantifier": "all schedules, any number of threads, all client programs keeping the discipline, all worlds reached by the rules", "why_tests_cant": "Quantifies over schedules and over the other threads' programs.", "anchors": ["src/world.rs: create_entity, remove_entity, attach/detach paths", "src/entity.rs: Entity::attach, Entity::detach, EntityManager", "src/world.rs: groups"]}
{"id": "C51", "title": "Every value is in exactly one place", "statement": "A component value handed to the world (attach, batch attach, overwriting) is afterwards in exactly one place: stored in the world, handed back by detach, or dropped (because the call was refused, the value was overwritten or its entity was removed). No call duplicates a value, makes one up, or loses one silently; creating, registering, grouping, reading and querying leave the values of every type the same up to order.", "quantifier": "all histories (the 'no duplicate' half without any rules of use), all types of values", "why_tests_cant": "Quantifies over all histories; duplication or loss may need a particular sequence of swaps, group updates and removals.", "anchors": ["src/sparse_set.rs: add, add_batch, remove, swap_by_index", "src/entity.rs: attach, detach", "src/world.rs: remove_entity", "src/group"]}
{"id": "C52", "title": "Threads cannot duplicate values", "statement": "When threads share a world and each gives (attaches, batch attaches, writes) only values it has — from the beginning or because a detach returned them to it — then at every moment, in every interleaving, races and panics included, the values stored are among those stored in the beginning and those the threads had, each at most as often. In particular, when several threads detach the same component at the same time, only one of them gets the value, and it is no longer stored.", "quantifier": "all worlds, all numbers of threads, all their programs (calls, handles, batches, guards, iterators), all schedules", "why_tests_cant": "Duplication would need a particular interleaving of the lock acquisitions of two calls; no test enumerates all programs and schedules.", "anchors": ["src/entity.rs: Entity::attach, Entity::detach, Entities::attach", "src/sparse_set.rs: add, remove, add_batch", "src/world.rs: attach_component, detach_component, remove_entity", "src/group"]}
{"id": "C53", "title": "The order of data() and iteration is predictable", "statement": "For a component type that was never named in make_group, data(), iterating the type and any query driven by it list the components in an order the caller can compute from the calls alone: attaching a component to an entity that lacks it (or batch attaching) puts it at the end, attaching over an existing one and every write keeps all places, and detaching it or removing its entity moves the last one into the gap and nothing else. Calls that panic change no place.", "quantifier": "all histories of calls (also with failed and broken groups of other types, panics, stale groups) and all never grouped types", "why_tests_cant": "the order after a history depends on all its calls; tests check a few histories, and swap_remove/index-table mistakes show only for certain interleavings of attach and detach", "anchors": ["src/sparse_set.rs: SparseSet::add, add_batch, remove", "src/component.rs: data, data_mut", "src/entity.rs: attach, detach", "src/world.rs: remove_entity"]}
{"id": "C54", "title": "A world lives on through threads and exclusive use by turns", "statement": "A world that is shared by threads, then used exclusively (register, make_group and any other call with &mut World), then shared again, and so on, stays sound: exclusive use begins only when no thread has a guard left and its turn comes if the threads take locks in order; no thread and no exclusive call runs into undefined behaviour; every step does to each component what it is meant to do; at every moment counts, data and plain queries answer as after some single-threaded history; the registered types and resources are exactly those registered exclusively; no value is duplicated; and within a phase calls are as if made one after the other.", "quantifier": "all sequences of phases of any number and length, all programs of the threads, all schedules, all exclusive calls (ids not zero, batch attaches of a type the entities lack, no group queries)", "why_tests_cant": "what a phase leaves is the input of the next; tests can run a few programs under the schedules that happen, not every sequence of phases", "anchors": ["src/system/mod.rs: System", "src/lib.rs: Arc<RwLock<World>> usage in the documentation", "src/world.rs: World", "src/entity.rs: Entity, Entities"]}
{"id": "C55", "title": "Ids stay right over the whole life of a world", "statement": "At every moment of the life of a world, shared and exclusive by turns, creating entities and asking whether an id exists answers as after the sequential history of the creations and removals that took effect so far, in that order: new ids are not alive, alive ids exist, ids of removed entities are reused last-removed-first, etc. (Provided nobody removes the id that has waited longest, of which exist() wrongly says that it exists.)", "quantifier": "all sequences of phases, all programs of the threads, all schedules", "why_tests_cant": "the free list after an interleaving of creations and removals by several threads depends on the whole history", "anchors": ["src/entity.rs: EntityManager (allocate, allocate_n, remove, has)", "src/world.rs: create_entity, create_entities, remove_entity, entity"]}
{"id": "C56", "title": "An id goes to two only if it was removed in between", "statement": "When threads share a world, each doing whatever it likes (creating and removing entities too), an id is given by create_entity and create_entities at most once more often than it is removed, and not at all as long as the entity that has it at the beginning is alive: if two threads are given the same id, an entity alive was removed under that id. (Provided nobody removes the id that has waited longest, C15.)", "quantifier": "all histories before, all programs of the threads, all schedules, all ids", "why_tests_cant": "whether two threads get the same id depends on the interleaving of allocations and removals, and on the free list left by the whole history", "anchors": ["src/entity.rs: EntityManager (allocate, allocate_n, remove)", "src/world.rs: create_entity, create_entities, remove_entity"]}
{"id": "C57", "title": "A forgotten guard can only make others wait", "statement": "Guards that nobody will ever drop (mem::forget, a leaked or kept object, a thread that stops) can only make others wait: whatever threads and exclusive calls do, they do the same as if these guards had been dropped, or they wait for one of them, for ever; an exclusive call that needs none of the forgotten locks is not hindered. Nothing new becomes possible, nothing is undefined behaviour, and what is behind a forgotten guard stays as it is (but a resource registered anew).", "quantifier": "all histories, clients, schedules, sets of stopped threads; all lives of a world in which any guards are forgotten at any time", "why_tests_cant": "which lock is asked for first depends on the schedule and on the state; waiting for ever cannot be observed by a test", "anchors": ["src/component.rs: StorageRead, StorageWrite, ComponentRead, ComponentWrite", "src/resource.rs: ResourceRead, ResourceWrite", "src/entity.rs: Entity, Entities", "src/world.rs: all methods taking &self"]}
{"id": "C58", "title": "A panic in the middle of a call leaves the world usable", "statement": "If a panic of the user's code (Drop of a component or resource) breaks a call off wherever it is, its guards are dropped one by one without waiting, and the world stays safe: no call of anybody is undefined behaviour afterwards; every action does to the components what it is meant to do (a call broken off does nothing more, having removed at most components it was about to remove); everything that looks at components answers as after some history of whole calls; guards still exclude each other; registered types and resources stay; no value is duplicated; ids are as after the creations and removals that took effect (an entity whose removal was broken off before its id was freed is alive, no id is given to two entities alive); nobody waits for ever because of it. Made by a user alone, a call on one storage is made entirely or not at all, and remove_entity of an entity in no group, broken off, has done what detaching the first so many of its components would have done.", "quantifier": "all lives of a world (any clients, schedules, exclusive calls), any number of calls broken off at any moment by any user, any objects kept over the panic, any continuation", "why_tests_cant": "the moment at which a call is broken off, what other threads do meanwhile and what follows are unbounded; undefined behaviour need not show", "anchors": ["src/world.rs: World::remove_entity", "src/sparse_set.rs: SparseSet::add, SparseSet::remove", "src/component.rs: ComponentStorage::remove", "src/entity.rs: Entity::attach, Entity::detach"]}
