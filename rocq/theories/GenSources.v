(** The text of /repo/redis/{hash_table,keys,list,set,sorted_set,string}.go and of the generated *.cmd.go beside them, as they are at the pinned commit.
    Made by tools/embed.py. *)
From Verif Require Import GoBase.

(** redis/hash_table.go *)
Definition hash_table_src : string := "package redis

import (
	""strconv""

	""github.com/yusank/godis/datastruct""
	""github.com/yusank/godis/protocol""
	""github.com/yusank/godis/util""
)

//go:generate gen_redis_cmd ""./hash_table.go""

// hDel .
func hDel(c *Command) (" +:+ "*protocol.Response, error) {
	if len(c.Values) < 2 {
		return nil, ErrCommandArgsNotEnough
	}

	cnt, err := datastruct.HDel(c.Values[0], c.Values[1])
	if err != nil && err != datastruct.ErrNil {
		return nil, err
	}

	return protocol.NewResponseWithInteger(int64(cnt)), nil
}

// hExists .
func hExists(c *Command) (" +:+ "*protocol.Response, error) {
	if len(c.Values) < 2 {
		return nil, ErrCommandArgsNotEnough
	}

	cnt, err := datastruct.HExists(c.Values[0], c.Values[1])
	if err != nil && err != datastruct.ErrNil {
		return nil, err
	}

	return protocol.NewResponseWithInteger(int64(cnt)), nil

}

// hGet .
func hGet(c *Command) (" +:+ "*protocol.Response, error) {
	if len(c.Values) < 2 {
		return nil, ErrCommandArgsNotEnough
	}

	v, err := datastruct.HGet(c.Values[0], c.Values[1])
	if err == datastruct.ErrNil {
		return protocol.NewResponseWithNilBulk(), nil
	}

	if err != nil {
		return nil, err
	}
	var res string
	switch vv := v.(type) {
	case string:
		res = vv
	case int64:
		res = strconv.FormatInt(vv, 10)
	case float64:
		res = strconv.FormatFloat(vv, 'g', -1, 64)
	}

	return protocol.NewResponseWithBulkString(res), nil
}

// hGetAll .
func hGetAll(c *Command) (" +:+ "*protocol.Response, error) {
	if len(c.Values) < 1 {
		return nil, ErrCommandArgsNotEnough
	}

	m, err := datastruct.HGetAll(c.Values[0])
	if err == datastruct.ErrNil || len(m) == 0 {
		return protocol.NewResponseWithNilBulk(), nil
	}

	if err != nil {
		return nil, err
	}

	var (
		values = make([]interface{}, len(m)*2)
		i      int
	)

	for k, v := range m {
		values[i] = k
		values[i+1] = v
		i += 2
	}

	return protocol.NewResponse(true).AppendBulkInterfaces(values...), nil
}

// hIncrBy .
func hIncrBy(c *Command) (" +:+ "*protocol.Response, error) {
	if len(c.Values) < 3 {
		return nil, ErrCommandArgsNotEnough
	}

	var (
		key     = c.Values[0]
		field   = c.Values[1]
		incrStr = c.Values[2]
	)

	i64, err := strconv.ParseInt(incrStr, 10, 64)
	if err != nil {
		return nil, datastruct.ErrNotInteger
	}

	res, err := datastruct.HIncrBy(key, field, i64)
	if err != nil {
		return nil, err
	}

	return protocol.NewResponseWithInteger(res), nil
}

// hIncrByFloat .
func hIncrByFloat(c *Command) (" +:+ "*protocol.Response, error) {
	if len(c.Values) < 3 {
		return nil, ErrCommandArgsNotEnough
	}

	var (
		key     = c.Values[0]
		field   = c.Values[1]
		incrStr = c.Values[2]
	)

	f64, err := strconv.ParseFloat(incrStr, 64)
	if err != nil {
		return nil, datastruct.ErrNotInteger
	}

	res, err := datastruct.HIncrByFloat(key, field, f64)
	if err != nil {
		return nil, err
	}

	return protocol.NewResponseWithBulkString(strconv.FormatFloat(res, 'g', -1, 64)), nil
}

// hKeys .
func hKeys(c *Command) (" +:+ "*protocol.Response, error) {
	if len(c.Values) < 1 {
		return nil, ErrCommandArgsNotEnough
	}

	values, err := datastruct.HKeys(c.Values[0])
	if err == datastruct.ErrNil {
		return protocol.NewResponseWithEmptyArray(), nil
	}

	if err != nil {
		return nil, err
	}

	return protocol.NewResponse(true).AppendBulkStrings(values...), nil
}

// hLen .
func hLen(c *Command) (" +:+ "*protocol.Response, error) {
	if len(c.Values) < 1 {
		return nil, ErrCommandArgsNotEnough
	}

	l, err := datastruct.HLen(c.Values[0])
	if err == datastruct.ErrNil {
		return protocol.NewResponseWithInteger(0), nil
	}

	if err != nil {
		return nil, err
	}

	return protocol.NewResponseWithInteger(int64(l)), nil
}

// hMGet .
func hMGet(c *Command) (" +:+ "*protocol.Response, error) {
	if len(c.Values) < 2 {
		return nil, ErrCommandArgsNotEnough
	}

	values, err := datastruct.HMGet(c.Values[0], c.Values[1:]...)
	if err == datastruct.ErrNil {
		values = make([]interface{}, len(c.Values[1:]))
		err = nil
	}

	if err != nil {
		return nil, err
	}

	return protocol.NewResponse(true).AppendBulkInterfaces(values...), nil
}

// hMSet .
func hMSet(c *Command) (" +:+ "*protocol.Response, error) {
	if len(c.Values) < 3 {
		return nil, ErrCommandArgsNotEnough
	}

	var (
		key = c.Values[0]
		kvs = make([]*datastruct.KV, 0)
	)

	for i := 1; i < len(c.Values)-1; i += 2 {
		kvs = append(kvs, &datastruct.KV{
			Key:   c.Values[i],
			Value: util.ConvertToValidValue(c.Values[i+1]),
		})
	}

	_, err := datastruct.HSet(key, datastruct.HSetInNone, kvs...)
	if err != nil {
		return nil, err
	}

	return protocol.NewResponseWithSimpleString(RespOK), nil
}

// hSet .
func hSet(c *Command) (" +:+ "*protocol.Response, error) {
	if len(c.Values) < 3 {
		return nil, ErrCommandArgsNotEnough
	}

	var (
		key = c.Values[0]
		kvs = make([]*datastruct.KV, 0)
	)

	for i := 1; i < len(c.Values)-1; i += 2 {
		kvs = append(kvs, &datastruct.KV{
			Key:   c.Values[i],
			Value: util.ConvertToValidValue(c.Values[i+1]),
		})
	}

	cnt, err := datastruct.HSet(key, datastruct.HSetInNone, kvs...)
	if err != nil {
		return nil, err
	}

	return protocol.NewResponseWithInteger(int64(cnt)), nil
}

// hSetNx .
func hSetNx(c *Command) (" +:+ "*protocol.Response, error) {
	if len(c.Values) < 3 {
		return nil, ErrCommandArgsNotEnough
	}

	var (
		key = c.Values[0]
		kvs = make([]*datastruct.KV, 1)
	)

	kvs[0] = &datastruct.KV{
		Key:   c.Values[1],
		Value: util.ConvertToValidValue(c.Values[2]),
	}

	cnt, err := datastruct.HSet(key, datastruct.HSetInNx, kvs...)
	if err != nil {
		return nil, err
	}

	return protocol.NewResponseWithInteger(int64(cnt)), nil
}

// hVals .
func hVals(c *Command) (" +:+ "*protocol.Response, error) {
	if len(c.Values) < 1 {
		return nil, ErrCommandArgsNotEnough
	}

	values, err := datastruct.HVals(c.Values[0])
	if err == datastruct.ErrNil {
		return protocol.NewResponseWithEmptyArray(), nil
	}

	if err != nil {
		return nil, err
	}

	return protocol.NewResponse(true).AppendBulkStrings(values...), nil
}
".
(** redis/hash_table.cmd.go *)
Definition hash_table_cmd : string := "// Code generated by gen_redis_cmd. DO NOT EDIT.

package redis

func init() {
	implementedCommands[""hdel""] = hDel
	implementedCommands[""hexists""] = hExists
	implementedCommands[""hget""] = hGet
	implementedCommands[""hgetall""] = hGetAll
	implementedCommands[""hincrby""] = hIncrBy
	implementedCommands[""hincrbyfloat""] = hIncrByFloat
	implementedCommands[""hkeys""] = hKeys
	implementedCommands[""hlen""] = hLen
	implementedCommands[""hmget""] = hMGet
	implementedCommands[""hmset""] = hMSet
	implementedCommands[""hset""] = hSet
	implementedCommands[""hsetnx""] = hSetNx
	implementedCommands[""hvals""] = hVals
}
".
(** redis/keys.go *)
Definition keys_src : string := "package redis

import (
	""github.com/yusank/godis/datastruct""
	""github.com/yusank/godis/protocol""
)

// global commands like `keys`, `exists`

//go:generate gen_redis_cmd ""./keys.go""

func keys(c *Command) (" +:+ "*protocol.Response, error) {
	if len(c.Values) < 1 {
		return nil, ErrCommandArgsNotEnough
	}

	values := datastruct.Keys(c.Values[0])
	return protocol.NewResponse(true).AppendBulkStrings(values...), nil
}

func exists(c *Command) (" +:+ "*protocol.Response, error) {
	if len(c.Values) < 1 {
		return nil, ErrCommandArgsNotEnough
	}

	found := datastruct.Exists(c.Values[0])
	rsp := protocol.NewResponseWithInteger(0)
	if found {
		rsp = protocol.NewResponseWithInteger(1)
	}

	return rsp, nil
}

// del .
func del(c *Command) (" +:+ "*protocol.Response, error) {
	if len(c.Values) < 1 {
		return nil, ErrCommandArgsNotEnough
	}

	cnt := datastruct.Del(c.Values[0])
	return protocol.NewResponseWithInteger(int64(cnt)), nil
}

// type
func keyType(c *Command) (" +:+ "*protocol.Response, error) {
	if len(c.Values) < 1 {
		return nil, ErrCommandArgsNotEnough
	}

	kt, ok := datastruct.Type(c.Values[0])
	if !ok {
		rsp := protocol.NewResponseWithSimpleString(RespNone)
		return rsp, nil
	}

	rsp := protocol.NewResponseWithSimpleString(string(kt))
	return rsp, nil
}

func ping(c *Command) (" +:+ "*protocol.Response, error) {
	return protocol.NewResponseWithSimpleString(RespPong), nil
}

func command(c *Command) (" +:+ "*protocol.Response, error) {
	return protocol.NewResponseWithSimpleString(RespCommand), nil
}
".
(** redis/keys.cmd.go *)
Definition keys_cmd : string := "// Code generated by gen_redis_cmd. DO NOT EDIT.

package redis

func init() {
	implementedCommands[""keys""] = keys
	implementedCommands[""exists""] = exists
	implementedCommands[""del""] = del
	implementedCommands[""type""] = keyType
	implementedCommands[""ping""] = ping
	implementedCommands[""command""] = command
}
".
(** redis/list.go *)
Definition list_src : string := "package redis

import (
	""strconv""
	""strings""

	""github.com/yusank/godis/datastruct""
	""github.com/yusank/godis/protocol""
)

//go:generate gen_redis_cmd ""./list.go""

// lPush .
func lPush(c *Command) (" +:+ "*protocol.Response, error) {
	if len(c.Values) < 2 {
		return nil, ErrCommandArgsNotEnough
	}

	ln, err := datastruct.LPush(c.Values[0], c.Values[1:]...)
	if err != nil {
		return nil, err
	}

	return protocol.NewResponseWithInteger(int64(ln)), nil
}

// lPop .
func lPop(c *Command) (" +:+ "*protocol.Response, error) {
	if len(c.Values) < 1 {
		return nil, ErrCommandArgsNotEnough
	}

	var count = 1
	if len(c.Values) > 1 {
		cnt, err := strconv.Atoi(c.Values[1])
		if err != nil || cnt <= 0 {
			return nil, ErrValueOutOfRange
		}

		count = cnt
	}

	values, err := datastruct.LPop(c.Values[0], count)
	if err == datastruct.ErrNil {
		return protocol.NewResponseWithNilBulk(), nil
	}

	if err != nil {
		return nil, err
	}

	return protocol.NewResponse(true).AppendBulkStrings(values...), nil
}

// rPush .
func rPush(c *Command) (" +:+ "*protocol.Response, error) {
	if len(c.Values) < 2 {
		return nil, ErrCommandArgsNotEnough
	}

	ln, err := datastruct.RPush(c.Values[0], c.Values[1:]...)
	if err != nil {
		return nil, err
	}

	return protocol.NewResponseWithInteger(int64(ln)), nil
}

// rPop .
func rPop(c *Command) (" +:+ "*protocol.Response, error) {
	if len(c.Values) < 1 {
		return nil, ErrCommandArgsNotEnough
	}

	var count = 1
	if len(c.Values) > 1 {
		cnt, err := strconv.Atoi(c.Values[1])
		if err != nil || cnt <= 0 {
			return nil, ErrValueOutOfRange
		}

		count = cnt
	}

	values, err := datastruct.RPop(c.Values[0], count)
	if err == datastruct.ErrNil {
		return protocol.NewResponseWithNilBulk(), nil
	}

	if err != nil {
		return nil, err
	}

	return protocol.NewResponse(true).AppendBulkStrings(values...), nil
}

// lLen .
func lLen(c *Command) (" +:+ "*protocol.Response, error) {
	if len(c.Values) < 1 {
		return nil, ErrCommandArgsNotEnough
	}

	ln, err := datastruct.LLen(c.Values[0])
	if err != nil && err != datastruct.ErrNil {
		return nil, err
	}

	return protocol.NewResponseWithInteger(int64(ln)), nil
}

// lRange .
func lRange(c *Command) (" +:+ "*protocol.Response, error) {
	if len(c.Values) < 3 {
		return nil, ErrCommandArgsNotEnough
	}

	start, err := strconv.Atoi(c.Values[1])
	if err != nil {
		return nil, ErrValueOutOfRange
	}

	stop, err := strconv.Atoi(c.Values[2])
	if err != nil {
		return nil, ErrValueOutOfRange
	}

	values, err := datastruct.LRange(c.Values[0], start, stop)
	if err != nil && err != datastruct.ErrNil {
		return nil, err
	}

	if len(values) == 0 {
		return protocol.NewResponseWithEmptyArray(), nil
	}

	return protocol.NewResponse(true).AppendBulkStrings(values...), nil
}

// lRem .
func lRem(c *Command) (" +:+ "*protocol.Response, error) {
	if len(c.Values) < 3 {
		return nil, ErrCommandArgsNotEnough
	}

	count, err := strconv.Atoi(c.Values[1])
	if err != nil {
		return nil, ErrValueOutOfRange
	}

	n, err := datastruct.LRem(c.Values[0], count, c.Values[2])
	if err != nil && err != datastruct.ErrNil {
		return nil, err
	}

	return protocol.NewResponseWithInteger(int64(n)), nil
}

// lIndex .
func lIndex(c *Command) (" +:+ "*protocol.Response, error) {
	if len(c.Values) < 2 {
		return nil, ErrCommandArgsNotEnough
	}

	index, err := strconv.Atoi(c.Values[1])
	if err != nil {
		return nil, ErrValueOutOfRange
	}

	val, err := datastruct.LIndex(c.Values[1], index)
	if err == datastruct.ErrNil {
		return protocol.NewResponseWithNilBulk(), nil
	}

	if err != nil {
		return nil, err
	}

	return protocol.NewResponseWithBulkString(val), nil
}

// lSet .
func lSet(c *Command) (" +:+ "*protocol.Response, error) {
	if len(c.Values) < 3 {
		return nil, ErrCommandArgsNotEnough
	}

	index, err := strconv.Atoi(c.Values[1])
	if err != nil {
		return nil, ErrValueOutOfRange
	}

	err = datastruct.LSet(c.Values[0], index, c.Values[2])
	if err != nil {
		return nil, err
	}

	return protocol.NewResponseWithSimpleString(RespOK), nil
}

// lInsert .
func lInsert(c *Command) (" +:+ "*protocol.Response, error) {
	if len(c.Values) < 4 {
		return nil, ErrCommandArgsNotEnough
	}

	var flag int
	switch strings.ToLower(c.Values[1]) {
	case ""after"":
		flag = 1
	case ""before"":
		flag = -1
	default:
		return nil, ErrCommandArgsNotEnough
	}

	n, err := datastruct.LInsert(c.Values[0], c.Values[2], c.Values[3], flag)
	if err != nil {
		return nil, err
	}

	return protocol.NewResponseWithInteger(int64(n)), nil
}
".
(** redis/list.cmd.go *)
Definition list_cmd : string := "// Code generated by gen_redis_cmd. DO NOT EDIT.

package redis

func init() {
	implementedCommands[""lpush""] = lPush
	implementedCommands[""lpop""] = lPop
	implementedCommands[""rpush""] = rPush
	implementedCommands[""rpop""] = rPop
	implementedCommands[""llen""] = lLen
	implementedCommands[""lrange""] = lRange
	implementedCommands[""lrem""] = lRem
	implementedCommands[""lindex""] = lIndex
	implementedCommands[""lset""] = lSet
	implementedCommands[""linsert""] = lInsert
}
".
(** redis/set.go *)
Definition set_src : string := "package redis

import (
	""strconv""

	""github.com/yusank/godis/datastruct""
	""github.com/yusank/godis/protocol""
)

//go:generate gen_redis_cmd ""./set.go""

// sAdd .
func sAdd(c *Command) (" +:+ "*protocol.Response, error) {
	if len(c.Values) < 2 {
		return nil, ErrCommandArgsNotEnough
	}

	cnt, err := datastruct.SAdd(c.Values[0], c.Values[1:]...)
	if err != nil {
		return nil, err
	}

	return protocol.NewResponseWithInteger(int64(cnt)), nil

}

// sCard .
func sCard(c *Command) (" +:+ "*protocol.Response, error) {
	if len(c.Values) < 1 {
		return nil, ErrCommandArgsNotEnough
	}

	card, err := datastruct.SCard(c.Values[0])
	if err != nil && err != datastruct.ErrNil {
		return nil, err
	}

	return protocol.NewResponseWithInteger(int64(card)), nil
}

// sDiff .
func sDiff(c *Command) (" +:+ "*protocol.Response, error) {
	if len(c.Values) < 1 {
		return nil, ErrCommandArgsNotEnough
	}

	if len(c.Values) == 1 {
		return protocol.NewResponseWithEmptyArray(), nil
	}

	diffs, err := datastruct.SDiff(c.Values...)
	if err == datastruct.ErrNil {
		return protocol.NewResponseWithEmptyArray(), nil
	}

	if err != nil {
		return nil, err
	}

	return protocol.NewResponse(true).AppendBulkStrings(diffs...), nil
}

// sDiffStore .
func sDiffStore(c *Command) (" +:+ "*protocol.Response, error) {
	if len(c.Values) < 2 {
		return nil, ErrCommandArgsNotEnough
	}

	if len(c.Values) == 1 {
		return protocol.NewResponseWithEmptyArray(), nil
	}

	cnt, err := datastruct.SDiffStore(c.Values[0], c.Values[1:]...)
	if err != nil {
		return nil, err
	}

	return protocol.NewResponseWithInteger(int64(cnt)), nil
}

// sInter .
func sInter(c *Command) (" +:+ "*protocol.Response, error) {
	if len(c.Values) < 1 {
		return nil, ErrCommandArgsNotEnough
	}

	if len(c.Values) == 1 {
		return protocol.NewResponseWithEmptyArray(), nil
	}

	inter, err := datastruct.SInter(c.Values...)
	if err == datastruct.ErrNil {
		return protocol.NewResponseWithEmptyArray(), nil
	}

	if err != nil {
		return nil, err
	}

	return protocol.NewResponse(true).AppendBulkStrings(inter...), nil
}

// sInterStore .
func sInterStore(c *Command) (" +:+ "*protocol.Response, error) {
	if len(c.Values) < 2 {
		return nil, ErrCommandArgsNotEnough
	}

	if len(c.Values) == 1 {
		return protocol.NewResponseWithEmptyArray(), nil
	}

	cnt, err := datastruct.SInterStore(c.Values[0], c.Values[1:]...)
	if err != nil {
		return nil, err
	}

	return protocol.NewResponseWithInteger(int64(cnt)), nil
}

// sUnion .
func sUnion(c *Command) (" +:+ "*protocol.Response, error) {
	if len(c.Values) < 1 {
		return nil, ErrCommandArgsNotEnough
	}

	if len(c.Values) == 1 {
		return protocol.NewResponseWithEmptyArray(), nil
	}

	unions, err := datastruct.SUnion(c.Values...)
	if err == datastruct.ErrNil {
		return protocol.NewResponseWithEmptyArray(), nil
	}

	if err != nil {
		return nil, err
	}

	return protocol.NewResponse(true).AppendBulkStrings(unions...), nil
}

// sUnionStore .
func sUnionStore(c *Command) (" +:+ "*protocol.Response, error) {
	if len(c.Values) < 2 {
		return nil, ErrCommandArgsNotEnough
	}

	if len(c.Values) == 1 {
		return protocol.NewResponseWithEmptyArray(), nil
	}

	cnt, err := datastruct.SUnionStore(c.Values[0], c.Values[1:]...)
	if err != nil {
		return nil, err
	}

	return protocol.NewResponseWithInteger(int64(cnt)), nil
}

// sIsMember .
func sIsMember(c *Command) (" +:+ "*protocol.Response, error) {
	if len(c.Values) < 2 {
		return nil, ErrCommandArgsNotEnough
	}

	res, err := datastruct.SIsMember(c.Values[0], c.Values[1])
	if err != nil && err != datastruct.ErrNil {
		return nil, err
	}

	return protocol.NewResponseWithInteger(int64(res)), nil
}

// sMembers .
func sMembers(c *Command) (" +:+ "*protocol.Response, error) {
	if len(c.Values) < 1 {
		return nil, ErrCommandArgsNotEnough
	}

	vals, err := datastruct.SMembers(c.Values[0])
	if err != nil {
		return nil, err
	}

	return protocol.NewResponse(true).AppendBulkStrings(vals...), nil
}

// sMove .
func sMove(c *Command) (" +:+ "*protocol.Response, error) {
	if len(c.Values) < 3 {
		return nil, ErrCommandArgsNotEnough
	}

	var (
		source = c.Values[0]
		target = c.Values[1]
		value  = c.Values[2]
	)

	res, err := datastruct.SMove(source, target, value)
	if err != nil {
		return nil, err
	}

	return protocol.NewResponseWithInteger(int64(res)), nil
}

// sRem .
func sRem(c *Command) (" +:+ "*protocol.Response, error) {
	if len(c.Values) < 2 {
		return nil, ErrCommandArgsNotEnough
	}

	cnt, err := datastruct.SRem(c.Values[0], c.Values[1:]...)
	if err != nil && err != datastruct.ErrNil {
		return nil, err
	}

	return protocol.NewResponseWithInteger(int64(cnt)), nil
}

// SPop .
func SPop(c *Command) (" +:+ "*protocol.Response, error) {
	if len(c.Values) < 1 {
		return nil, ErrCommandArgsNotEnough
	}

	var (
		key = c.Values[0]
		cnt int
		err error
	)

	if len(c.Values) > 1 {
		cnt, err = strconv.Atoi(c.Values[1])
		if err != nil {
			return nil, datastruct.ErrNotInteger
		}
	}

	values, err := datastruct.SPop(key, cnt)
	if err == datastruct.ErrNil {
		return protocol.NewResponseWithEmptyArray(), nil
	}
	if err != nil {
		return nil, err
	}

	return protocol.NewResponse(true).AppendBulkStrings(values...), nil
}
".
(** redis/set.cmd.go *)
Definition set_cmd : string := "// Code generated by gen_redis_cmd. DO NOT EDIT.

package redis

func init() {
	implementedCommands[""sadd""] = sAdd
	implementedCommands[""scard""] = sCard
	implementedCommands[""sdiff""] = sDiff
	implementedCommands[""sdiffstore""] = sDiffStore
	implementedCommands[""sinter""] = sInter
	implementedCommands[""sinterstore""] = sInterStore
	implementedCommands[""sunion""] = sUnion
	implementedCommands[""sunionstore""] = sUnionStore
	implementedCommands[""sismember""] = sIsMember
	implementedCommands[""smembers""] = sMembers
	implementedCommands[""smove""] = sMove
	implementedCommands[""srem""] = sRem
	implementedCommands[""spop""] = SPop
}
".
(** redis/sorted_set.go *)
Definition sorted_set_src : string := "package redis

import (
	""strconv""
	""strings""

	""github.com/yusank/godis/datastruct""
	""github.com/yusank/godis/protocol""
)

//go:generate gen_redis_cmd ""./sorted_set.go""

// zAdd .
func zAdd(c *Command) (" +:+ "*protocol.Response, error) {
	if len(c.Values) < 3 {
		return nil, ErrCommandArgsNotEnough
	}

	var (
		key     = c.Values[0]
		members = make([]*datastruct.ZSetMember, 0)
		flag    int
	)

	for i := 1; i < len(c.Values)-1; {
		switch strings.ToLower(c.Values[i]) {
		case ""xx"":
			flag |= datastruct.ZAddInXx
			i++
		case ""nx"":
			flag |= datastruct.ZAddInNx
			i++
		case ""incr"":
			flag |= datastruct.ZAddInIncr
			i++
		// add more
		default:
			score, err := strconv.ParseFloat(c.Values[i], 64)
			if err != nil {
				return nil, ErrValueOutOfRange
			}

			members = append(members, &datastruct.ZSetMember{
				Score: score,
				Value: c.Values[i+1],
			})
			i += 2
		}
	}

	cnt, err := datastruct.ZAdd(key, members, flag)
	if err != nil {
		return nil, err
	}

	return protocol.NewResponseWithInteger(int64(cnt)), nil
}

// zScore .
func zScore(c *Command) (" +:+ "*protocol.Response, error) {
	if len(c.Values) < 2 {
		return nil, ErrCommandArgsNotEnough
	}

	f, err := datastruct.ZScore(c.Values[0], c.Values[1])
	if err == datastruct.ErrNil {
		return protocol.NewResponseWithNilBulk(), nil
	}

	if err != nil {
		return nil, err
	}

	return protocol.NewResponseWithBulkString(strconv.FormatFloat(f, 'g', -1, 64)), nil
}

// zRank .
func zRank(c *Command) (" +:+ "*protocol.Response, error) {
	if len(c.Values) < 2 {
		return nil, ErrCommandArgsNotEnough
	}

	rank, err := datastruct.ZRank(c.Values[0], c.Values[1])
	if err == datastruct.ErrNil {
		return protocol.NewResponseWithNilBulk(), nil
	}

	if err != nil {
		return nil, err
	}

	return protocol.NewResponseWithInteger(int64(rank)), nil
}

// zRem .
func zRem(c *Command) (" +:+ "*protocol.Response, error) {
	if len(c.Values) < 2 {
		return nil, ErrCommandArgsNotEnough
	}

	cnt, err := datastruct.ZRem(c.Values[0], c.Values[1:]...)
	if err == datastruct.ErrNil {
		return protocol.NewResponseWithInteger(0), nil
	}
	if err != nil {
		return nil, err
	}

	return protocol.NewResponseWithInteger(int64(cnt)), nil
}

// zCard .
func zCard(c *Command) (" +:+ "*protocol.Response, error) {
	if len(c.Values) < 1 {
		return nil, ErrCommandArgsNotEnough
	}

	cnt, err := datastruct.ZCard(c.Values[0])
	if err == datastruct.ErrNil {
		return protocol.NewResponseWithInteger(0), nil
	}
	if err != nil {
		return nil, err
	}

	return protocol.NewResponseWithInteger(int64(cnt)), nil
}

// zCount .
func zCount(c *Command) (" +:+ "*protocol.Response, error) {
	if len(c.Values) < 3 {
		return nil, ErrCommandArgsNotEnough
	}

	var (
		key    = c.Values[0]
		minStr = strings.ToLower(c.Values[1])
		maxStr = strings.ToLower(c.Values[2])
	)

	cnt, err := datastruct.ZCount(key, minStr, maxStr)
	if err == datastruct.ErrNil {
		return protocol.NewResponseWithInteger(0), nil
	}
	if err != nil {
		return nil, err
	}

	return protocol.NewResponseWithInteger(int64(cnt)), nil
}

// zIncr .
func zIncr(c *Command) (" +:+ "*protocol.Response, error) {
	if len(c.Values) < 3 {
		return nil, ErrCommandArgsNotEnough
	}

	score, err := strconv.ParseFloat(c.Values[1], 64)
	if err != nil {
		return nil, ErrValueOutOfRange
	}

	curScore, err := datastruct.ZIncr(c.Values[0], score, c.Values[2])
	if err == datastruct.ErrNil {
		return protocol.NewResponseWithInteger(0), nil
	}
	if err != nil {
		return nil, err
	}

	return protocol.NewResponseWithBulkString(strconv.FormatFloat(curScore, 'g', -1, 64)), nil
}

// zRange .
func zRange(c *Command) (" +:+ "*protocol.Response, error) {
	if len(c.Values) < 3 {
		return nil, ErrCommandArgsNotEnough
	}

	var (
		key    = c.Values[0]
		minStr = c.Values[1]
		maxStr = c.Values[2]
		flag   = datastruct.ZRangeInNone
	)

	for _, s := range c.Values[2:] {
		switch strings.ToLower(s) {
		case ""withscores"":
			flag |= datastruct.ZRangeInWithScores
		case ""byscore"":
			flag |= datastruct.ZRangeInByScore

		}
	}

	values, err := datastruct.ZRange(key, minStr, maxStr, flag)
	if err == datastruct.ErrNil {
		return protocol.NewResponseWithNilBulk(), nil
	}
	if err != nil {
		return nil, err
	}

	return protocol.NewResponse(true).AppendBulkStrings(values...), nil
}

// zRangeByScore .
func zRangeByScore(c *Command) (" +:+ "*protocol.Response, error) {
	if len(c.Values) < 3 {
		return nil, ErrCommandArgsNotEnough
	}

	values, err := datastruct.ZRange(c.Values[0], c.Values[1], c.Values[2], datastruct.ZRangeInByScore)
	if err == datastruct.ErrNil {
		return protocol.NewResponseWithNilBulk(), nil
	}
	if err != nil {
		return nil, err
	}

	return protocol.NewResponse(true).AppendBulkStrings(values...), nil
}

// zRevRange .
func zRevRange(c *Command) (" +:+ "*protocol.Response, error) {
	if len(c.Values) < 3 {
		return nil, ErrCommandArgsNotEnough
	}

	var (
		key    = c.Values[0]
		minStr = c.Values[1]
		maxStr = c.Values[2]
		flag   = datastruct.ZRangeInNone
	)

	for _, s := range c.Values[2:] {
		switch strings.ToLower(s) {
		case ""withscores"":
			flag |= datastruct.ZRangeInWithScores
		}
	}

	values, err := datastruct.ZRevRange(key, minStr, maxStr, flag)
	if err == datastruct.ErrNil {
		return protocol.NewResponseWithNilBulk(), nil
	}
	if err != nil {
		return nil, err
	}

	return protocol.NewResponse(true).AppendBulkStrings(values...), nil
}

// zPopMin .
func zPopMin(c *Command) (" +:+ "*protocol.Response, error) {
	if len(c.Values) < 1 {
		return nil, ErrCommandArgsNotEnough
	}

	var (
		key = c.Values[0]
		cnt = 1
		err error
	)

	if len(c.Values) > 1 {
		cnt, err = strconv.Atoi(c.Values[1])
		if err != nil {
			return nil, datastruct.ErrNotInteger
		}
	}

	values, err := datastruct.ZPopMin(key, cnt)
	if err == datastruct.ErrNil || len(values) == 0 {
		return protocol.NewResponseWithEmptyArray(), nil
	}

	if err != nil {
		return nil, err
	}

	return protocol.NewResponse(true).AppendBulkStrings(values...), nil
}

// zPopMax .
func zPopMix(c *Command) (" +:+ "*protocol.Response, error) {
	if len(c.Values) < 1 {
		return nil, ErrCommandArgsNotEnough
	}

	var (
		key = c.Values[0]
		cnt = 1
		err error
	)

	if len(c.Values) > 1 {
		cnt, err = strconv.Atoi(c.Values[1])
		if err != nil {
			return nil, datastruct.ErrNotInteger
		}
	}

	values, err := datastruct.ZPopMax(key, cnt)
	if err == datastruct.ErrNil || len(values) == 0 {
		return protocol.NewResponseWithEmptyArray(), nil
	}

	if err != nil {
		return nil, err
	}

	return protocol.NewResponse(true).AppendBulkStrings(values...), nil
}
".
(** redis/sorted_set.cmd.go *)
Definition sorted_set_cmd : string := "// Code generated by gen_redis_cmd. DO NOT EDIT.

package redis

func init() {
	implementedCommands[""zadd""] = zAdd
	implementedCommands[""zscore""] = zScore
	implementedCommands[""zrank""] = zRank
	implementedCommands[""zrem""] = zRem
	implementedCommands[""zcard""] = zCard
	implementedCommands[""zcount""] = zCount
	implementedCommands[""zincr""] = zIncr
	implementedCommands[""zrange""] = zRange
	implementedCommands[""zrangebyscore""] = zRangeByScore
	implementedCommands[""zrevrange""] = zRevRange
	implementedCommands[""zpopmin""] = zPopMin
	implementedCommands[""zpopmax""] = zPopMix
}
".
(** redis/string.go *)
Definition string_src : string := "package redis

import (
	""strconv""

	""github.com/yusank/godis/datastruct""
	""github.com/yusank/godis/protocol""
)

//go:generate gen_redis_cmd ""./string.go""

func set(c *Command) (" +:+ "*protocol.Response, error) {
	if len(c.Values) < 2 {
		return nil, ErrCommandArgsNotEnough
	}

	datastruct.Set(c.Values[0], c.Values[1], c.Values[2:]...)
	return protocol.NewResponseWithSimpleString(RespOK), nil
}

// mSet .
func mSet(c *Command) (" +:+ "*protocol.Response, error) {
	if len(c.Values) < 2 && len(c.Values)%2 != 0 {
		return nil, ErrCommandArgsNotEnough
	}

	datastruct.MSet(c.Values...)
	return protocol.NewResponseWithSimpleString(RespOK), nil
}

func get(c *Command) (" +:+ "*protocol.Response, error) {
	if len(c.Values) < 1 {
		return nil, ErrCommandArgsNotEnough
	}

	val, err := datastruct.Get(c.Values[0])
	if err == datastruct.ErrNil {
		return protocol.NewResponseWithNilBulk(), nil
	}

	if err != nil {
		return nil, err
	}

	return protocol.NewResponse().AppendBulkInterfaces(val), nil
}

func mget(c *Command) (" +:+ "*protocol.Response, error) {
	if len(c.Values) < 1 {
		return nil, ErrCommandArgsNotEnough
	}

	values := datastruct.MGet(c.Values...)

	return protocol.NewResponse(true).AppendBulkInterfaces(values...), nil
}

func incr(c *Command) (" +:+ "*protocol.Response, error) {
	if len(c.Values) < 1 {
		return nil, ErrCommandArgsNotEnough
	}

	i64, err := datastruct.IncrBy(c.Values[0], 1)
	if err != nil {
		return nil, err
	}

	return protocol.NewResponseWithInteger(i64), nil
}

func incrBy(c *Command) (" +:+ "*protocol.Response, error) {
	if len(c.Values) < 2 {
		return nil, ErrCommandArgsNotEnough
	}

	increment, err := strconv.ParseInt(c.Values[1], 10, 64)
	if err != nil {
		return nil, datastruct.ErrNotInteger
	}

	i64, err := datastruct.IncrBy(c.Values[0], increment)
	if err != nil {
		return nil, err
	}

	return protocol.NewResponseWithInteger(i64), nil
}

func decr(c *Command) (" +:+ "*protocol.Response, error) {
	if len(c.Values) < 1 {
		return nil, ErrCommandArgsNotEnough
	}

	i64, err := datastruct.IncrBy(c.Values[0], -1)
	if err != nil {
		return nil, err
	}

	return protocol.NewResponseWithInteger(i64), nil
}

func decrBy(c *Command) (" +:+ "*protocol.Response, error) {
	if len(c.Values) < 2 {
		return nil, ErrCommandArgsNotEnough
	}

	decrement, err := strconv.ParseInt(c.Values[1], 10, 64)
	if err != nil {
		return nil, datastruct.ErrNotInteger
	}

	i64, err := datastruct.IncrBy(c.Values[0], -decrement)
	if err != nil {
		return nil, err
	}

	return protocol.NewResponseWithInteger(i64), nil
}

// append
func stringAppend(c *Command) (" +:+ "*protocol.Response, error) {
	if len(c.Values) < 2 {
		return nil, ErrCommandArgsNotEnough
	}

	i, err := datastruct.Append(c.Values[0], c.Values[1])
	if err != nil {
		return nil, err
	}

	return protocol.NewResponseWithInteger(int64(i)), nil
}
".
(** redis/string.cmd.go *)
Definition string_cmd : string := "// Code generated by gen_redis_cmd. DO NOT EDIT.

package redis

func init() {
	implementedCommands[""set""] = set
	implementedCommands[""mset""] = mSet
	implementedCommands[""get""] = get
	implementedCommands[""mget""] = mget
	implementedCommands[""incr""] = incr
	implementedCommands[""incrby""] = incrBy
	implementedCommands[""decr""] = decr
	implementedCommands[""decrby""] = decrBy
	implementedCommands[""append""] = stringAppend
}
".
